(** Facts about .magres files. *)
From Coq Require Import QArith Qreduction.
From Verif Require Import PyBase PyFacts PyVal Regex RegexFacts RegexComplete CastepRes NumSpec NumFacts NumProps NumVal
  StrUtil SpecStr StrUtilFacts SpecLine SpecType TypeConv TypeConvFacts IntStr DictUtil SpecDict DictFacts DictSmall Stream StreamFacts
  SpecTable ColumnFacts TextParsers TextParsersFacts Header HeaderFacts SpecMd MdGeom MdFacts SpecBands BandsFacts NeedFacts SpecCastep CastepBlocks CastepFacts
  SpecFiles SpecFiles2 SpecFiles5 TextFiles FileFacts FileParts FileParts2 FileParts3 FileParts4.
Local Open Scope list_scope.
Local Open Scope nat_scope.

(** ** Dictionaries *)
Lemma merged_is (es d : dict) : merged es d -> d = dict_of key_eqb es.
Proof.
  induction 1 as [|its out k v _ IH Hk|its a k v0 b v _ IH Hk]; [reflexivity| |]; rewrite dict_of_snoc', <- IH.
  - clear -Hk. induction out as [|[k' v'] out IH]; [reflexivity|]. cbn in Hk |- *. destruct (key_eqb_spec k' k) as [->|N].
    + exfalso. apply Hk. now left.
    + f_equal. apply IH. tauto.
  - clear -Hk. induction a as [|[k' v'] a IH]; cbn.
    + destruct (key_eqb_spec k k); [reflexivity|congruence].
    + cbn in Hk. destruct (key_eqb_spec k' k) as [->|N]; [exfalso; apply Hk; now left|]. f_equal. apply IH. tauto.
Qed.
Lemma dict_of_merged (es : dict) : merged es (dict_of key_eqb es).
Proof. apply merged_dict_of, key_eqb_spec. Qed.
Lemma dict_of_app1 (es : dict) k v : dset key_eqb (dict_of key_eqb es) k v = dict_of key_eqb (es ++ [(k, v)]).
Proof. symmetry. apply dict_of_snoc'. Qed.
Lemma said_dict es : dict_said es (VDict false (dict_of key_eqb es)).
Proof. exists (dict_of key_eqb es). split; [apply dict_of_merged|reflexivity]. Qed.
Lemma floats_tuple ns : numbers_ok ns -> to_tuple TFloat (map write_num ns) = Ok (floats ns).
Proof.
  intros H. rewrite to_tuple_nums; [reflexivity| |]; eapply Forall_impl; try exact H; cbn; tauto.
Qed.
Lemma starts_not w l : ~ begins w l -> startswith ($w) l = false.
Proof. apply not_true, begins_iff. Qed.
(** ** The calculation block *)
Lemma lines_fold {A S0} (row : str -> option A -> Prop) (step : S0 -> str -> result S0) (app : S0 -> A -> S0) :
  (forall l o, row l o -> forall st, step st l = Ok (match o with Some it => app st it | None => st end)) ->
  forall ls its, lines_say row ls its -> forall st, foldM step ls st = Ok (fold_left app its st).
Proof.
  intros H ls its. induction 1 as [|l o ls its Hl _ IH]; intros st; cbn [foldM]; [reflexivity|]. rewrite (H _ _ Hl). cbn [bind].
  destruct o as [it|]; apply IH.
Qed.
Lemma split_aux_some t : forall cur, cur <> [] -> split_aux cur t <> [].
Proof.
  induction t as [|c t IH]; intros cur H; cbn [split_aux]; [destruct cur; [congruence|discriminate]|].
  destruct (is_space c); [destruct cur; [congruence|discriminate]|]. apply IH. now destruct cur.
Qed.
Lemma calc_line_spec l o : calc_row l o -> forall st, calc_line st l =
  Ok (match o with Some x => dset key_eqb st (fst (calc_entry x)) (snd (calc_entry x)) | None => st end).
Proof.
  intros [l' Hb|a k b Hb Ha Hb' Hk Hn|a p name g v b Hb Ha Hg Hg0 Hb' Hp Hn (c & t & Ev & Hc) (c' & t' & Ev' & Hc')] st; unfold calc_line.
  - apply begins_iff in Hb. change (text_of "[") with ($"[") in Hb. now rewrite Hb.
  - rewrite (starts_not _ _ Hb). assert (E : strip (a ++ k ++ b) = k).
    { apply strip_pad; [now apply blanks_iff|now apply blanks_iff|]. apply forallb_forall. intros x Hx. rewrite Forall_forall in Hn.
      apply negb_true_iff. destruct (is_space x) eqn:Q; [|reflexivity]. apply blank_iff in Q. now destruct (Hn x Hx). }
    rewrite E. assert (S1 : split k = [k]).
    { apply split_cut. rewrite <- (app_nil_r k) at 2. change (k ++ []) with ([] ++ k ++ []). rewrite Forall_forall in Hn. apply cut_cons; [intros ? []|exact Hk|exact Hn|discriminate|].
      constructor. intros ? []. }
    now rewrite S1.
  - rewrite (starts_not _ _ Hb). assert (N : forall x, nonblank x -> is_space x = false).
    { intros x Hx. destruct (is_space x) eqn:Q; [|reflexivity]. now apply blank_iff in Q. }
    assert (E : strip (a ++ (p ++ name) ++ g ++ v ++ b) = (p ++ name) ++ g ++ v).
    { replace (a ++ (p ++ name) ++ g ++ v ++ b) with (a ++ ((p ++ name) ++ g ++ v) ++ b) by (now rewrite <- !app_assoc).
      apply strip_by_core; [now apply blanks_iff|now apply blanks_iff| | |].
      - destruct p as [|x p]; [discriminate|]. cbn. inversion Hn; subst. now apply N.
      - unfold last_not. rewrite Ev', !app_assoc, rev_app_distr. cbn. now apply N.
      - destruct p; discriminate. }
    rewrite E. assert (S1 : exists y ws, split ((p ++ name) ++ g ++ v) = (p ++ name) :: y :: ws).
    { rewrite split_word_ws; [|split; [destruct p; discriminate|]|now apply blanks_iff|exact Hg0].
      - destruct (split v) as [|y ws] eqn:Q; [|eauto]. exfalso. rewrite Ev in Q. unfold split in Q. cbn [split_aux] in Q. rewrite (N _ Hc) in Q.
        revert Q. now apply split_aux_some.
      - apply forallb_forall. intros x Hx. rewrite Forall_forall in Hn. now rewrite (N _ (Hn _ Hx)). }
    destruct S1 as (y & ws & ->). cbn [fst snd calc_entry]. do 3 f_equal.
    + rewrite skipn_app, Hp. rewrite <- Hp, skipn_all, Nat.sub_diag. reflexivity.
    + rewrite skipn_app, Nat.sub_diag, skipn_all. cbn. unfold lstrip, lstrip_by.
      rewrite drop_while_app; [reflexivity|now apply blanks_iff|]. rewrite Ev. cbn. now apply N.
Qed.
Lemma calc_fold kvs : forall es, fold_left (fun st x => dset key_eqb st (fst (calc_entry x)) (snd (calc_entry x))) kvs (dict_of key_eqb es) = dict_of key_eqb (es ++ map calc_entry kvs).
Proof.
  induction kvs as [|x kvs IH]; intros es; cbn [fold_left map]; [now rewrite app_nil_r|]. rewrite dict_of_app1, IH, <- app_assoc. cbn [app].
  now rewrite <- surjective_pairing.
Qed.
Lemma dget_last (es1 es2 : dict) k v : ~ In k (map fst es2) -> dget key_eqb (dict_of key_eqb (es1 ++ (k, v) :: es2)) k = Some v.
Proof.
  induction es2 as [|[k' v'] es2 IH] using rev_ind; intros H.
  - rewrite dict_of_snoc', (dget_dset key_eqb key_eqb_spec). destruct (key_eqb_spec k k); congruence.
  - rewrite map_app, in_app_iff in H. cbn in H. replace (es1 ++ (k, v) :: es2 ++ [(k', v')]) with ((es1 ++ (k, v) :: es2) ++ [(k', v')]) by (now rewrite <- app_assoc).
    rewrite dict_of_snoc', (dget_dset key_eqb key_eqb_spec). destruct (key_eqb_spec k' k); [tauto|]. apply IH. tauto.
Qed.
Lemma digits_no_dot ds : forallb (fun c => negb (Ascii.eqb c ".")) (write_digits ds) = true.
Proof. induction ds as [|d ds IH]; [reflexivity|]. unfold write_digits in *. cbn [map forallb]. rewrite IH. now destruct d. Qed.
Lemma calc_spec ls kvs ver : lines_say calc_row ls kvs -> version_of kvs ver ->
  foldM calc_line ls [] = Ok (dict_of key_eqb (map calc_entry kvs)) /\ calc_version (dict_of key_eqb (map calc_entry kvs)) = Ok ver.
Proof.
  intros H (kvs1 & kvs2 & ds & e & -> & Hn & Hds & He & ->). split.
  - rewrite (lines_fold _ _ _ calc_line_spec _ _ H). f_equal. apply (calc_fold _ []).
  - unfold calc_version, dgetE. rewrite map_app. cbn [map].
    pose proof (dget_last (map calc_entry kvs1) (map calc_entry kvs2) (kstr "code_version") (VStr (write_digits ds ++ e))) as G.
    change (kstr "code_version", VStr (write_digits ds ++ e)) with (calc_entry (text_of "code_version", write_digits ds ++ e)) in G.
    rewrite G; clear G.
    + cbn [bind]. assert (Q : take_while (fun c => negb (Ascii.eqb c ".")) (write_digits ds ++ e) = write_digits ds).
      { apply take_while_app; [apply digits_no_dot|]. destruct He as [->|[e' ->]]; [exact I|reflexivity]. }
      rewrite Q. now apply py_int_digits.
    + intros C. apply Hn. rewrite map_map in C. apply in_map_iff in C as (x & E & Hx). injection E as E. apply in_map_iff. now exists x.
Qed.
(** ** The atoms block *)
Definition site_app (st : dict * dict * dict) (it : site_item) : dict * dict * dict :=
  let '(u, c, o) := st in
  match it with
  | SUnits k v => (dset key_eqb u (KStr k) (VStr v), c, o)
  | SLattice k ns => (u, c, dset key_eqb o (KStr k) (floats ns))
  | SAtom a ns => (u, dset key_eqb c (SpecDict.atom_key a) (floats ns), o)
  end.
Lemma begins_two (w w' : string) l : begins w l -> begins w' l -> startswith ($w) ($w') = true \/ startswith ($w') ($w) = true.
Proof.
  intros [r ->] [r' E]. unfold text_of in E. revert E. change (list_ascii_of_string w) with ($w). change (list_ascii_of_string w') with ($w').
  generalize ($w) ($w'). intros a. induction a as [|x a IH]; intros b E; [now left|]. destruct b as [|y b]; [now right|]. cbn in E. injection E as <- E.
  destruct (IH b E) as [H|H]; [left|right]; apply startswith_iff in H as [q ->]; apply startswith_iff; now exists q.
Qed.
Lemma starts_other w w' l : begins w l -> startswith ($w) ($w') = false -> startswith ($w') ($w) = false -> startswith ($w') l = false.
Proof.
  intros H H1 H2. apply starts_not. intros H'. destruct (begins_two _ _ _ H H'); congruence.
Qed.
Lemma atoms_line_spec l o : site_row l o -> forall st, atoms_line st l = Ok (match o with Some it => site_app st it | None => st end).
Proof.
  intros [l' w k v Hb Hc|l' k ns Hb Hc Hn|l' w1 w2 sp ds ns Hb Hc Hd Hn|l' H1 H2 H3] [[u c] o']; unfold atoms_line.
  - rewrite (starts_other _ "lattice" _ Hb), (starts_other _ "atom" _ Hb) by reflexivity. apply begins_iff in Hb. rewrite Hb, (split_cut _ _ Hc). reflexivity.
  - apply begins_iff in Hb. rewrite Hb, (split_cut _ _ Hc), (floats_tuple _ Hn). reflexivity.
  - rewrite (starts_other _ "lattice" _ Hb) by reflexivity. apply begins_iff in Hb. rewrite Hb, (split_cut _ _ Hc), (floats_tuple _ Hn), (py_int_digits _ Hd). reflexivity.
  - now rewrite (starts_not _ _ H1), (starts_not _ _ H2), (starts_not _ _ H3).
Qed.
Lemma site_fold its : forall u c o, fold_left site_app its (dict_of key_eqb u, dict_of key_eqb c, dict_of key_eqb o) =
  (dict_of key_eqb (u ++ flat_map site_units its), dict_of key_eqb (c ++ flat_map site_coords its), dict_of key_eqb (o ++ flat_map site_lattice its)).
Proof.
  induction its as [|it its IH]; intros u c o; cbn [fold_left flat_map]; [now rewrite !app_nil_r|].
  destruct it as [k v|k ns|a ns]; cbn [site_app site_units site_coords site_lattice]; rewrite dict_of_app1, IH, <- ?app_assoc; reflexivity.
Qed.
Lemma atoms_spec ls its : lines_say site_row ls its -> atoms_block ls =
  Ok (named "units" (VDict false (dict_of key_eqb (flat_map site_units its))) :: named "coords" (VDict false (dict_of key_eqb (flat_map site_coords its))) ::
      dict_of key_eqb (flat_map site_lattice its)).
Proof.
  intros H. unfold atoms_block. rewrite (lines_fold _ _ _ atoms_line_spec _ _ H). assert (Q : fold_left site_app its ([], [], []) =
    (dict_of key_eqb (flat_map site_units its), dict_of key_eqb (flat_map site_coords its), dict_of key_eqb (flat_map site_lattice its)))
    by exact (site_fold its [] [] []). rewrite Q. reflexivity.
Qed.
(** ** The magres block *)
Definition res_app (d : dict) (it : res_item) : dict :=
  let k := KStr (res_name it) in
  let e := res_entry it in
  match dget key_eqb d k with
  | Some (VDict b x) => dset key_eqb d k (VDict b (dset key_eqb x (fst e) (snd e)))
  | _ => dset key_eqb d k (VDict false [e])
  end.
Definition res_state (its : list res_item) (d : dict) : Prop :=
  NoDup (map fst d) /\ (forall k, (forall s, k <> KStr s) -> dget key_eqb d k = None) /\
  forall s, dget key_eqb d (KStr s) = match res_named s its with [] => None | es => Some (VDict false (dict_of key_eqb es)) end.
Lemma set_in_app its d it : res_state its d -> set_in d (KStr (res_name it)) (fst (res_entry it)) (snd (res_entry it)) = Ok (res_app d it).
Proof.
  intros (_ & _ & H). unfold set_in, res_app. rewrite H. destruct (res_named (res_name it) its); [|reflexivity]. now rewrite <- surjective_pairing.
Qed.
Lemma res_named_snoc s its it : res_named s (its ++ [it]) = res_named s its ++ (if text_dec (res_name it) s then [res_entry it] else []).
Proof. unfold res_named. rewrite flat_map_app. cbn. now rewrite app_nil_r. Qed.
Lemma res_app_state its d it : res_state its d -> res_state (its ++ [it]) (res_app d it).
Proof.
  intros (Hn & Ho & H).
  assert (Q : res_app d it = dset key_eqb d (KStr (res_name it)) (VDict false (dict_of key_eqb (res_named (res_name it) its ++ [res_entry it])))).
  { unfold res_app. rewrite H. destruct (res_named (res_name it) its) as [|e es] eqn:E.
    - cbn [app]. now destruct (res_entry it).
    - destruct (res_entry it) as [k v]. now rewrite dict_of_snoc'. }
  rewrite Q. split; [now apply (dset_nodup key_eqb key_eqb_spec)|]. split.
  - intros k Hk. rewrite (dget_dset key_eqb key_eqb_spec). destruct (key_eqb_spec (KStr (res_name it)) k) as [<-|_]; [now destruct (Hk (res_name it))|auto].
  - intros s. rewrite (dget_dset key_eqb key_eqb_spec), res_named_snoc. destruct (text_dec (res_name it) s) as [->|N].
    + destruct (key_eqb_spec (KStr s) (KStr s)); [|congruence]. now destruct (res_named s its).
    + destruct (key_eqb_spec (KStr (res_name it)) (KStr s)) as [C|_]; [congruence|]. rewrite app_nil_r. apply H.
Qed.
Lemma tensor_name_iff w : tensor_name w <-> existsb (str_eqb w) tensor_names = true.
Proof.
  rewrite existsb_exists. unfold tensor_name. split.
  - intros H. exists w. split; [exact H|]. destruct (str_eqb_spec w w); congruence.
  - intros (x & Hx & E). destruct (str_eqb_spec w x); [now subst|discriminate].
Qed.
Lemma write_digits_num' ds : ds <> [] -> exists n, write_digits ds = write_num n /\ num_wf n /\ n_frac n = None /\ n_exp n = None.
Proof.
  intros H. eexists. split; [apply write_digits_num|]. split; [|split; reflexivity]. unfold num_wf. cbn. unfold frac_digits. cbn. rewrite app_nil_r. auto.
Qed.
Lemma unmunge_digits n sp ds vs : ds <> [] -> unmunge n sp (write_digits ds) vs = (sp, write_digits ds, vs).
Proof.
  intros H. destruct (write_digits_num' ds H) as (m & E & Hw & Hf & He). unfold unmunge. rewrite E.
  pose proof (detect_num [] m [] ltac:(constructor) ltac:(constructor) Hw) as D. cbn [app] in D. rewrite app_nil_r, Hf, He in D. now rewrite D.
Qed.
Lemma write_digits_len ds : length (write_digits ds) = length ds.
Proof. apply map_length. Qed.
Lemma unmunge_joined n sp ds m vs : num_wf m -> ~ is_int m -> length ds = n ->
  unmunge n (sp ++ write_digits ds) (write_num m) vs = (sp, write_digits ds, write_num m :: vs).
Proof.
  intros Hw Hi Hl. unfold unmunge. pose proof (detect_num [] m [] ltac:(constructor) ltac:(constructor) Hw) as D. cbn [app] in D. rewrite app_nil_r in D.
  rewrite D. assert (Q : match n_frac m with Some _ => TFloat | None => match n_exp m with Some _ => TFloat | None => TInt end end = TFloat).
  { destruct (n_frac m) eqn:E1; [reflexivity|]. destruct (n_exp m) eqn:E2; [reflexivity|]. destruct Hi. now split. }
  rewrite Q. rewrite app_length, write_digits_len, Hl, Nat.add_sub, firstn_app, skipn_app, firstn_all, skipn_all, Nat.sub_diag. cbn. now rewrite app_nil_r.
Qed.
Lemma cut_head w ws l : cut nonblank (w :: ws) l -> nthE (split l) 0 = Ok w.
Proof. intros H. now rewrite (split_cut _ _ H). Qed.
Lemma magres_line_spec ver its l o : res_row ver l o -> forall d, res_state its d -> magres_line ver d l =
  Ok (match o with Some it => res_app d it | None => d end).
Proof.
  intros [l' w k v Hb Hc|l' w sp ds ns Hb Ht Hc Hd Hn|l' w sp ds n ns Hb Ht Hc Hl Hi Hn|l' w sa da sb db ns Hb Ht Hw Hc Hda Hdb Hn|l' w ws Hb Hc Ht Hw] d Hs;
    unfold magres_line.
  - apply begins_iff in Hb. rewrite Hb, (split_cut _ _ Hc). exact (set_in_app its d (RUnits k v) Hs).
  - rewrite (starts_not _ _ Hb), (cut_head _ _ _ Hc). cbn [bind]. apply tensor_name_iff in Ht. rewrite Ht, (split_cut _ _ Hc), unmunge_digits by exact Hd.
    rewrite (floats_tuple _ Hn), (py_int_digits _ Hd). cbn [bind]. exact (set_in_app its d (RTensor w (sp, decimal ds) ns) Hs).
  - assert (Hd : ds <> []) by (intros ->; unfold index_width in Hl; cbn in Hl; destruct (ver <? 22)%Z; discriminate).
    rewrite (starts_not _ _ Hb), (cut_head _ _ _ Hc). cbn [bind]. apply tensor_name_iff in Ht. rewrite Ht, (split_cut _ _ Hc). cbn [map].
    rewrite unmunge_joined; [|now inversion Hn|exact Hi|exact Hl].
    change (write_num n :: map write_num ns) with (map write_num (n :: ns)).
    rewrite (floats_tuple _ Hn), (py_int_digits _ Hd). cbn [bind]. exact (set_in_app its d (RTensor w (sp, decimal ds) (n :: ns)) Hs).
  - rewrite (starts_not _ _ Hb), (cut_head _ _ _ Hc). cbn [bind]. rewrite (not_true _ _ (tensor_name_iff w) Ht).
    apply begins_iff in Hw. rewrite Hw, (split_cut _ _ Hc), (floats_tuple _ Hn), (py_int_digits _ Hda), (py_int_digits _ Hdb). cbn [bind].
    exact (set_in_app its d (RPair w (sa, decimal da) (sb, decimal db) ns) Hs).
  - rewrite (starts_not _ _ Hb), (cut_head _ _ _ Hc). cbn [bind]. now rewrite (not_true _ _ (tensor_name_iff w) Ht), (starts_not _ _ Hw).
Qed.
Lemma magres_lines_spec ver ls its : lines_say (res_row ver) ls its -> forall its0 d, res_state its0 d ->
  exists d', foldM (magres_line ver) ls d = Ok d' /\ res_state (its0 ++ its) d'.
Proof.
  induction 1 as [|l o ls its Hl _ IH]; intros its0 d Hs; cbn [foldM]; [exists d; now rewrite app_nil_r|].
  rewrite (magres_line_spec ver its0 l o Hl d Hs). cbn [bind]. destruct o as [it|]; [|now apply IH].
  destruct (IH (its0 ++ [it]) _ (res_app_state _ _ it Hs)) as (d' & E & H). exists d'. split; [exact E|]. now rewrite <- app_assoc in H.
Qed.
Definition res_item_ok (it : res_item) : Prop := match it with RUnits _ _ => True | RTensor w _ _ => tensor_name w | RPair w _ _ _ => begins "isc" w end.
Lemma res_rows_ok ver ls its : lines_say (res_row ver) ls its -> Forall res_item_ok its.
Proof. induction 1 as [|l o ls its Hl _ IH]; [constructor|]. destruct Hl; auto; constructor; auto; exact I. Qed.
Lemma res_no_long its short long : Forall res_item_ok its -> In (short, long) res_long -> res_named (text_of long) its = [].
Proof.
  intros H Hin. induction H as [|it its Hi _ IH]; [reflexivity|]. unfold res_named in *. cbn [flat_map]. rewrite IH, app_nil_r.
  destruct (text_dec (res_name it) (text_of long)) as [E|_]; [exfalso|reflexivity].
  destruct it as [k v|w a ns|w a b ns]; cbn in E, Hi.
  - cbn in Hin. repeat (destruct Hin as [Hin|Hin]; [injection Hin as <- <-; discriminate E|]). destruct Hin.
  - subst w. cbn in Hin. repeat (destruct Hin as [Hin|Hin]; [injection Hin as <- <-; cbn in Hi; repeat (destruct Hi as [Hi|Hi]; [discriminate Hi|]); destruct Hi|]). destruct Hin.
  - subst w. apply begins_iff in Hi. cbn in Hin. repeat (destruct Hin as [Hin|Hin]; [injection Hin as <- <-; discriminate Hi|]). destruct Hin.
Qed.
Lemma magres_keys : MAGRES_ALIASES = map (fun x => (KStr (text_of (fst x)), KStr (text_of (snd x)))) res_long.
Proof. reflexivity. Qed.
Lemma magres_aliases_ok : NoDup (map fst MAGRES_ALIASES) /\ NoDup (map snd MAGRES_ALIASES) /\
  (forall k, In k (map fst MAGRES_ALIASES) -> ~ In k (map snd MAGRES_ALIASES)).
Proof.
  split; [|split].
  - cbn. repeat (constructor; [intros C; cbn in C; repeat (destruct C as [C|C]; [discriminate C|]); exact C|]). constructor.
  - cbn. repeat (constructor; [intros C; cbn in C; repeat (destruct C as [C|C]; [discriminate C|]); exact C|]). constructor.
  - intros k H C. cbn in H. repeat (destruct H as [<-|H]; [cbn in C; repeat (destruct C as [C|C]; [discriminate C|]); exact C|]). exact H.
Qed.
Lemma long_short_inj s l s' l' : In (s, l) res_long -> In (s', l') res_long -> text_of l = text_of l' -> s = s'.
Proof.
  intros H H' E. apply (f_equal string_of_list_ascii) in E. unfold text_of in E. rewrite !string_of_list_ascii_of_string in E. subst l'.
  cbn in H, H'. repeat (destruct H as [H|H]; [injection H as <- <-; repeat (destruct H' as [H'|H']; [injection H'; congruence|]); contradiction|]). contradiction.
Qed.
Theorem magres_block_spec ver ls its : lines_say (res_row ver) ls its -> exists d, magres_block ver ls = Ok d /\ res_said its d.
Proof.
  intros H. pose proof (res_rows_ok _ _ _ H) as Hok. destruct (magres_lines_spec ver ls its H [] []) as (d & E & (Hn & Ho & Hs)).
  { split; [constructor|split; reflexivity]. }
  cbn [app] in Hs. unfold magres_block. rewrite E. cbn [bind].
  destruct magres_aliases_ok as (A1 & A2 & A3).
  destruct (alias_fold false d MAGRES_ALIASES d Hn A1 A2 A3 ltac:(reflexivity)) as (out & _ & E2 & N' & B1 & B2 & B3).
  exists out. split; [unfold add_aliases; now rewrite E2|].
  assert (F : forall f t, In (f, t) MAGRES_ALIASES <-> exists s l, In (s, l) res_long /\ f = KStr (text_of s) /\ t = KStr (text_of l)).
  { intros f t. rewrite magres_keys, in_map_iff. split.
    - intros ([s l] & Q & Hin). injection Q as <- <-. exists s, l. auto.
    - intros (s & l & Hin & -> & ->). now exists (s, l). }
  assert (Hl : forall s l, In (s, l) res_long -> dget key_eqb out (KStr (text_of l)) = dget key_eqb d (KStr (text_of s))).
  { intros s l Hin. assert (Hf : In (KStr (text_of s), KStr (text_of l)) MAGRES_ALIASES) by (apply F; exists s, l; auto).
    destruct (dget key_eqb d (KStr (text_of s))) as [v|] eqn:G; [exact (B1 _ _ _ Hf G)|]. rewrite B3.
    - now rewrite Hs, (res_no_long its s l Hok Hin).
    - intros C. apply (A3 _ C). apply in_map_iff. now exists (KStr (text_of s), KStr (text_of l)).
    - intros f Hf'. apply F in Hf' as (s' & l' & Hin' & -> & El). injection El as El.
      assert (s = s') as <- by (eapply long_short_inj; eassumption). exact G. }
  assert (Hother : forall k, (forall s l, In (s, l) res_long -> k <> KStr (text_of l)) -> dget key_eqb out k = dget key_eqb d k).
  { intros k Hk. destruct (memb k (map fst MAGRES_ALIASES)) eqn:M.
    - apply memb_iff in M. now rewrite (B2 _ M).
    - rewrite B3; [reflexivity| |].
      + intros C. apply memb_iff in C. congruence.
      + intros f Hf. exfalso. apply F in Hf as (s & l & Hin & _ & ->). now apply (Hk s l). }
  assert (LD : forall k, (exists s l, In (s, l) res_long /\ k = KStr (text_of l)) \/ (forall s l, In (s, l) res_long -> k <> KStr (text_of l))).
  { intros k. destruct (memb k (map snd MAGRES_ALIASES)) eqn:M.
    - left. apply memb_iff in M. apply in_map_iff in M as ([f t] & Et & M). apply F in M as (s & l & Hin & _ & ->). cbn in Et. subst k. eauto.
    - right. intros s l Hin ->. assert (In (KStr (text_of l)) (map snd MAGRES_ALIASES)).
      { apply in_map_iff. exists (KStr (text_of s), KStr (text_of l)). split; [reflexivity|]. apply F. eauto. }
      apply memb_iff in H0. congruence. }
  assert (Hhas : forall s v, dget key_eqb d (KStr s) = Some v -> res_named s its <> [] /\ dict_said (res_named s its) v).
  { intros s v. rewrite Hs. destruct (res_named s its) eqn:Q; [discriminate|]. intros [= <-]. split; [discriminate|apply said_dict]. }
  assert (Hhas' : forall s, res_named s its <> [] -> dget key_eqb d (KStr s) <> None).
  { intros s. rewrite Hs. destruct (res_named s its) eqn:Q; [now intros []|discriminate]. }
  constructor; [exact N'| |].
  - intros k v Hin. apply (dget_nodup key_eqb key_eqb_spec) in Hin; [|exact N']. destruct (LD k) as [(s & l & Hin' & ->)|Hk].
    + exists (text_of l). split; [reflexivity|]. rewrite (Hl s l Hin') in Hin. destruct (Hhas _ _ Hin) as [G1 G2]. now apply rh_long with (short := s).
    + rewrite (Hother k Hk) in Hin. destruct k as [| | | |s|]; try (rewrite Ho in Hin; [discriminate|intros; discriminate]).
      exists s. split; [reflexivity|]. destruct (Hhas _ _ Hin). now apply rh_name.
  - intros s v Hh Ha. assert (G : dget key_eqb out (KStr s) <> None).
    { destruct Hh as [s v H1 _|short long v Hin H1 _].
      - rewrite Hother; [now apply Hhas'|]. intros s' l Hin Q. injection Q as ->. now rewrite (res_no_long its s' l Hok Hin) in H1.
      - rewrite (Hl _ _ Hin). now apply Hhas'. }
    destruct (dget key_eqb out (KStr s)) as [v'|] eqn:Q; [|congruence]. apply (dget_in key_eqb key_eqb_spec) in Q.
    apply Ha. apply in_map_iff. now exists (KStr s, v').
Qed.
(** ** Which lines open and close blocks *)
Lemma at_end_cases s : at_end s = true -> s = [] \/ s = empty_line.
Proof.
  unfold at_end. destruct s as [|c [|]]; [now left| |discriminate]. intros H. right. apply Ascii.eqb_eq in H. now subst.
Qed.
Lemma all_rules w : forallb (Ascii.eqb "=") w = true -> w = repeat "="%char (length w).
Proof. induction w as [|c w IH]; intros H; [reflexivity|]. cbn in H |- *. apply andb_true_iff in H as [H H']. apply Ascii.eqb_eq in H as <-. f_equal. auto. Qed.
Lemma rule_iff l : rule l <-> re_test RULE_RE l = true.
Proof.
  unfold re_test. split.
  - intros (n & e & -> & He). assert (M : exists x, re_match RULE_RE (repeat "="%char (S n) ++ e) = Some x).
    { unfold re_match. rewrite (fp_match_at _ _ _ _ []); [eauto|]. unfold RULE_RE. cbn [RSeqs].
      change (repeat "="%char (S n)) with ([] ++ repeat "="%char (S n)). apply fp_seq with (c1 := []); [apply fp_bol|]. rewrite <- (app_nil_r (repeat _ _)). apply fp_seq with (c1 := []).
      - apply fp_plus_chr; [|discriminate|destruct He as [->| ->]; [exact I|reflexivity]]. apply forallb_forall. intros c Hc. apply repeat_spec in Hc. now subst.
      - apply fp_eol. now destruct He as [->| ->]. }
    destruct M as (x & M). now rewrite (match_search _ _ _ M).
  - intros H. destruct (re_search RULE_RE l) as [x|] eqn:E; [clear H|discriminate]. unfold re_search in E.
    destruct (search_from RULE_RE None l) as [[pre y]|] eqn:E'; [|discriminate]. apply search_sound in E' as (s' & E1 & E2 & D). rewrite <- E2 in E1.
    destruct D as (p1 & s1 & c1 & (Hp & <- & <- & <-) & p2 & s2 & c2 & D & D').
    assert (pre = []) as ->. { destruct pre as [|c pre _] using rev_ind; [reflexivity|]. rewrite pa_snoc in Hp. discriminate. }
    apply (den_rep_chr true 1 None (Ascii.eqb "=")) in D as (w & Ew & Hl & _ & Hw & _). destruct D' as (He & _). apply at_end_cases in He.
    rewrite E1, Ew. cbn [app]. destruct w as [|c w]; [cbn in Hl; lia|]. exists (length w), s2. split; [|exact He]. f_equal.
    now apply all_rules in Hw.
Qed.
Lemma opening_match name l : opening name l -> re_test MAGRES_BEGIN_RE l = true.
Proof.
  intros (a & b & Ha & Hb & [Hn Hw] & ->). unfold re_test.
  assert (M : exists x, re_match MAGRES_BEGIN_RE (a ++ text_of "[" ++ name ++ text_of "]" ++ b) = Some x).
  { unfold re_match. rewrite <- (app_nil_r (a ++ _)). rewrite (fp_match_at _ _ _ _ []); [eauto|]. unfold MAGRES_BEGIN_RE. cbn [RSeqs].
    change (a ++ text_of "[" ++ name ++ text_of "]" ++ b) with ([] ++ a ++ text_of "[" ++ name ++ text_of "]" ++ b).
    apply fp_seq with (c1 := []); [apply fp_bol|]. apply fp_seq with (c1 := []); [apply fp_star_chr; [now apply blanks_iff|reflexivity]|].
    apply fp_seq with (c1 := []); [apply fp_char|]. apply fp_seq with (c1 := []); [apply fp_plus_chr; [now apply words_iff|exact Hn|reflexivity]|].
    apply fp_seq with (c1 := []); [apply fp_char|]. rewrite <- (app_nil_r b). apply fp_seq with (c1 := []); [apply fp_star_chr; [now apply blanks_iff|exact I]|].
    now apply fp_eol. }
  destruct M as (x & M). now rewrite (match_search _ _ _ M).
Qed.
Lemma bol_pre pre : pa None pre = None -> pre = [].
Proof. destruct pre as [|c pre _] using rev_ind; [reflexivity|]. rewrite pa_snoc. discriminate. Qed.
Lemma opening_iff l : (exists name, opening name l) <-> re_test MAGRES_BEGIN_RE l = true.
Proof.
  split; [intros [name H]; now apply opening_match with name|]. unfold re_test. intros H.
  destruct (re_search MAGRES_BEGIN_RE l) as [x|] eqn:E; [clear H|discriminate]. unfold re_search in E.
  destruct (search_from MAGRES_BEGIN_RE None l) as [[pre y]|] eqn:E'; [|discriminate]. apply search_sound in E' as (s' & E1 & E2 & D). rewrite <- E2 in E1.
  unfold MAGRES_BEGIN_RE in D. cbn [RSeqs] in D.
  destruct D as (p1 & s1 & c1 & (Hp & <- & <- & <-) & p2 & s2 & c2 & D2 & p3 & s3 & c3 & D3 & p4 & s4 & c4 & D4 & p5 & s5 & c5 & D5 & p6 & s6 & c6 & D6 & D7).
  assert (pre = []) as -> by (apply bol_pre; now destruct (pa None pre)).
  apply (den_rep_chr true 0 None is_space) in D2 as (a & Ea & _ & _ & Ha & _).
  apply (den_lit ($"[")) in D3 as (E3 & _ & _).
  apply (den_rep_chr true 1 None is_word) in D4 as (w & Ew & Hl & _ & Hw & _).
  apply (den_lit ($"]")) in D5 as (E5 & _ & _).
  apply (den_rep_chr true 0 None is_space) in D6 as (b & Eb & _ & _ & Hb & _). destruct D7 as (He & _). apply at_end_cases in He.
  exists w, a, (b ++ s6). split; [now apply blanks_iff|]. split; [apply Forall_app; split; [now apply blanks_iff|destruct He as [->| ->]; [constructor|constructor; [now apply blank_iff|constructor]]]|].
  split; [split; [now destruct w; [cbn in Hl; lia|]|now apply words_iff]|]. rewrite E1, Ea, E3, Ew, E5, Eb. reflexivity.
Qed.
Lemma closing_iff l : closing l <-> re_test MAGRES_END_RE l = true.
Proof.
  split.
  - intros (name & a & b & Ha & Hb & [Hn Hw] & ->). unfold re_test.
    assert (M : exists x, re_match MAGRES_END_RE (a ++ text_of "[/" ++ name ++ text_of "]" ++ b) = Some x).
    { unfold re_match. rewrite <- (app_nil_r (a ++ _)). rewrite (fp_match_at _ _ _ _ []); [eauto|]. unfold MAGRES_END_RE. cbn [RSeqs].
      change (a ++ text_of "[/" ++ name ++ text_of "]" ++ b) with ([] ++ a ++ text_of "[/" ++ name ++ text_of "]" ++ b).
      apply fp_seq with (c1 := []); [apply fp_bol|]. apply fp_seq with (c1 := []); [apply fp_star_chr; [now apply blanks_iff|reflexivity]|].
      apply fp_seq with (c1 := []); [apply (fp_lit _ ($"[/"))|]. apply fp_seq with (c1 := []); [apply fp_plus_chr; [now apply words_iff|exact Hn|reflexivity]|].
      apply fp_seq with (c1 := []); [apply fp_char|]. rewrite <- (app_nil_r b). apply fp_seq with (c1 := []); [apply fp_star_chr; [now apply blanks_iff|exact I]|].
      now apply fp_eol. }
    destruct M as (x & M). now rewrite (match_search _ _ _ M).
  - unfold re_test. intros H.
    destruct (re_search MAGRES_END_RE l) as [x|] eqn:E; [clear H|discriminate]. unfold re_search in E.
    destruct (search_from MAGRES_END_RE None l) as [[pre y]|] eqn:E'; [|discriminate]. apply search_sound in E' as (s' & E1 & E2 & D). rewrite <- E2 in E1.
    unfold MAGRES_END_RE in D. cbn [RSeqs] in D.
    destruct D as (p1 & s1 & c1 & (Hp & <- & <- & <-) & p2 & s2 & c2 & D2 & p3 & s3 & c3 & D3 & p4 & s4 & c4 & D4 & p5 & s5 & c5 & D5 & p6 & s6 & c6 & D6 & D7).
    assert (pre = []) as -> by (apply bol_pre; now destruct (pa None pre)).
    apply (den_rep_chr true 0 None is_space) in D2 as (a & Ea & _ & _ & Ha & _).
    apply (den_lit ($"[/")) in D3 as (E3 & _ & _).
    apply (den_rep_chr true 1 None is_word) in D4 as (w & Ew & Hl & _ & Hw & _).
    apply (den_lit ($"]")) in D5 as (E5 & _ & _).
    apply (den_rep_chr true 0 None is_space) in D6 as (b & Eb & _ & _ & Hb & _). destruct D7 as (He & _). apply at_end_cases in He.
    exists w, a, (b ++ s6). split; [now apply blanks_iff|]. split; [apply Forall_app; split; [now apply blanks_iff|destruct He as [->| ->]; [constructor|constructor; [now apply blank_iff|constructor]]]|].
    split; [split; [now destruct w; [cbn in Hl; lia|]|now apply words_iff]|]. rewrite E1, Ea, E3, Ew, E5, Eb. reflexivity.
Qed.
Lemma opening_name name l : opening name l -> magres_name l = name.
Proof.
  intros (a & b & Ha & Hb & [Hn Hw] & ->). unfold magres_name. apply words_iff in Hw.
  assert (B : forall c, In c name -> Ascii.eqb "[" c = false /\ Ascii.eqb "]" c = false).
  { intros c Hc. rewrite forallb_forall in Hw. specialize (Hw c Hc). split; apply Ascii.eqb_neq; intros <-; discriminate. }
  assert (Hl : forall f, (forall c, In c name -> f c = false) -> hd_not f name /\ last_not f name).
  { intros f Hf. split; [destruct name; [exact I|apply Hf; now left]|]. unfold last_not. destruct name as [|c name _] using rev_ind; [exact I|].
    rewrite rev_app_distr. cbn. apply Hf. rewrite in_app_iff. right. now left. }
  replace (a ++ text_of "[" ++ name ++ text_of "]" ++ b) with (a ++ (text_of "[" ++ name ++ text_of "]") ++ b) by (now rewrite <- !app_assoc).
  unfold strip. rewrite strip_by_core; [|now apply blanks_iff|now apply blanks_iff|reflexivity| |discriminate].
  2: { unfold last_not. now rewrite !rev_app_distr. }
  replace (text_of "[" ++ name ++ text_of "]") with (text_of "[" ++ (name ++ text_of "]") ++ []) by (now rewrite app_nil_r).
  rewrite strip_by_core; [|reflexivity|reflexivity| | |now destruct name].
  - change (name ++ text_of "]") with ([] ++ name ++ text_of "]"). apply strip_by_core; try reflexivity; [apply Hl|apply Hl|exact Hn]; intros c Hc; now apply B.
  - destruct name as [|c name]; [congruence|]. cbn. apply B. now left.
  - unfold last_not. now rewrite rev_app_distr.
Qed.
(** ** The magres_old block *)
Lemma gathered_set (d0 es d : dict) k v : NoDup (map fst d0) -> gathered d0 es d -> Forall (fun e => fst e <> k) es ->
  gathered (dset key_eqb d0 k v) es (dset key_eqb d k v).
Proof.
  intros N0 [Hd Hin] He. split; [now apply (dset_nodup key_eqb key_eqb_spec)|]. intros k' v'. rewrite !dset_in by assumption. rewrite Hin. split.
  - intros [[-> ->]|[Hn [H|H]]]; [left; now left|left; now right|now right].
  - intros [[[-> ->]|[Hn H]]|(vs & Hv & -> & Hcol)]; [now left|right; tauto|]. right. split.
    + intros ->. apply column_values in Hcol. rewrite (values_absent _ _ He) in Hcol. congruence.
    + right. eauto.
Qed.
Lemma same_iff a b : same a b = true <-> a = b.
Proof.
  destruct a as [s i], b as [s' i']. unfold same, same_atom. cbn [fst snd]. destruct (text_dec s s') as [->|N].
  - cbn. rewrite Z.eqb_eq. split; [now intros ->|congruence].
  - cbn. split; [discriminate|congruence].
Qed.
Lemma atom_key_inj a b : SpecDict.atom_key a = SpecDict.atom_key b -> a = b.
Proof. destruct a, b. cbn. unfold SpecDict.atom_key. cbn. now intros [= -> ->]. Qed.
Definition old_rel (its : list old_item) (kc : key * pyval) (ki : key * dict) : Prop :=
  fst ki = fst kc /\ exists a, fst kc = SpecDict.atom_key a /\
    gathered (dict_of key_eqb (named "coords" (snd kc) :: flat_map (old_sets a) its)) (flat_map (old_lists a) its) (snd ki).
Definition old_ok (it : old_item) : Prop :=
  match it with OProperty _ s _ => ~ In s (map text_of ["eigvenvalue"; "eigvenvector"]%string) | _ => True end.
Definition old_do (it : old_item) (d : dict) : result dict :=
  match it with
  | OValue _ n => append_to d (kstr "eigvenvalue") (SpecCastep.float_of n)
  | OVector _ ns => append_to d (kstr "eigvenvector") (floats ns)
  | OProperty _ s n => Ok (dset key_eqb d (KStr s) (SpecCastep.float_of n))
  end.
Lemma nodup_dict_of (es : dict) : NoDup (map fst (dict_of key_eqb es)).
Proof.
  induction es as [|[k v] es IH] using rev_ind; [constructor|]. rewrite dict_of_snoc'. now apply (dset_nodup key_eqb key_eqb_spec).
Qed.
Lemma keys_dict_of (es : dict) k : In k (map fst (dict_of key_eqb es)) -> In k (map fst es).
Proof.
  induction es as [|[k' v] es IH] using rev_ind; [intros []|]. rewrite dict_of_snoc', map_app, in_app_iff. cbn. intros H.
  apply in_map_iff in H as ([k2 v2] & <- & H). apply dset_in in H; [|apply nodup_dict_of]. cbn.
  destruct H as [[-> _]|[_ H]]; [right; now left|]. left. apply IH. apply in_map_iff. now exists (k2, v2).
Qed.
Lemma old_sets_absent a v its k : Forall old_ok its -> In k ["eigvenvalue"; "eigvenvector"]%string ->
  absent (dict_of key_eqb (named "coords" v :: flat_map (old_sets a) its)) (KStr (text_of k)).
Proof.
  intros H Hk C. apply keys_dict_of in C. cbn [map fst named] in C. destruct C as [C|C].
  - injection C as C. destruct Hk as [<-|[<-|[]]]; discriminate C.
  - apply in_map_iff in C as ([k' v'] & E & C). cbn in E. subst k'. apply in_flat_map in C as (it & Hit & C). rewrite Forall_forall in H. specialize (H it Hit).
    destruct it as [b n|b ns|b s n]; try destruct C. cbn [old_sets] in C. destruct (same a b); [|destruct C]. destruct C as [C|[]].
    injection C as -> _. apply H. now apply in_map.
Qed.
Lemma old_lists_keys a its s : ~ In s (map text_of ["eigvenvalue"; "eigvenvector"]%string) -> Forall (fun e => fst e <> KStr s) (flat_map (old_lists a) its).
Proof.
  intros Hs. apply Forall_forall. intros [k v] H E. cbn in E. subst k. apply in_flat_map in H as (it & _ & H). destruct it as [b n|b ns|b s' n]; cbn [old_lists] in H.
  - destruct (same a b); [|destruct H]. destruct H as [H|[]]. injection H as <- _. apply Hs. now left.
  - destruct (same a b); [|destruct H]. destruct H as [H|[]]. injection H as <- _. apply Hs. right. now left.
  - destruct H.
Qed.
Lemma flat_map_snoc {A B} (f : A -> list B) l x : flat_map f (l ++ [x]) = flat_map f l ++ f x.
Proof. rewrite flat_map_app. cbn. now rewrite app_nil_r. Qed.
Lemma old_other its it kc ki : old_rel its kc ki -> fst kc <> SpecDict.atom_key (old_atom it) -> old_rel (its ++ [it]) kc ki.
Proof.
  intros (E & a & Ea & G) H. split; [exact E|]. exists a. split; [exact Ea|]. rewrite !flat_map_snoc.
  assert (Q : same a (old_atom it) = false). { destruct (same a (old_atom it)) eqn:Q; [|reflexivity]. apply same_iff in Q. congruence. }
  assert (old_sets a it = [] /\ old_lists a it = []) as [-> ->] by (destruct it; cbn in Q |- *; rewrite ?Q; auto). now rewrite !app_nil_r.
Qed.
Lemma old_own its it kc ki : Forall old_ok its -> old_ok it -> old_rel its kc ki -> fst kc = SpecDict.atom_key (old_atom it) ->
  exists d', old_do it (snd ki) = Ok d' /\ old_rel (its ++ [it]) kc (fst ki, d').
Proof.
  intros Ho Hi (E & a & Ea & G) H. assert (a = old_atom it) as -> by (apply atom_key_inj; congruence).
  assert (Q : same (old_atom it) (old_atom it) = true) by (now apply same_iff).
  destruct it as [b n|b ns|b s n]; cbn [old_atom old_do] in *.
  - destruct (gathered_step _ _ _ (kstr "eigvenvalue") (SpecCastep.float_of n) (old_sets_absent b (snd kc) its "eigvenvalue" Ho ltac:(now left)) G) as (d' & Ed & G').
    exists d'. split; [exact Ed|]. split; [exact E|]. exists b. split; [exact Ea|]. rewrite !flat_map_snoc. cbn [old_sets old_lists snd]. rewrite Q, app_nil_r. exact G'.
  - destruct (gathered_step _ _ _ (kstr "eigvenvector") (floats ns) (old_sets_absent b (snd kc) its "eigvenvector" Ho ltac:(right; now left)) G) as (d' & Ed & G').
    exists d'. split; [exact Ed|]. split; [exact E|]. exists b. split; [exact Ea|]. rewrite !flat_map_snoc. cbn [old_sets old_lists snd]. rewrite Q, app_nil_r. exact G'.
  - eexists. split; [reflexivity|]. split; [exact E|]. exists b. split; [exact Ea|]. rewrite !flat_map_snoc. cbn [old_sets old_lists snd]. rewrite Q, app_nil_r.
    rewrite app_comm_cons, dict_of_snoc'. apply gathered_set; [apply nodup_dict_of|exact G|]. now apply old_lists_keys.
Qed.
Lemma old_update its it coords info : Forall old_ok its -> old_ok it -> NoDup (map fst coords) -> Forall2 (old_rel its) coords info ->
  In (SpecDict.atom_key (old_atom it)) (map fst coords) -> exists d d', dget key_eqb info (SpecDict.atom_key (old_atom it)) = Some d /\ old_do it d = Ok d' /\
    Forall2 (old_rel (its ++ [it])) coords (dset key_eqb info (SpecDict.atom_key (old_atom it)) d').
Proof.
  intros Ho Hi Hn F. induction F as [|[k c] [k' i] coords info R F IH]; intros Hin; [destruct Hin|].
  cbn [map fst] in Hn, Hin. inversion_clear Hn as [|? ? Hk Hn']. pose proof R as (E & _). cbn in E. subst k'. cbn [dget dset].
  destruct (key_eqb_spec k (SpecDict.atom_key (old_atom it))) as [->|N].
  - destruct (old_own its it _ _ Ho Hi R eq_refl) as (d' & Ed & R'). exists i, d'. split; [reflexivity|]. split; [exact Ed|]. constructor; [exact R'|].
    clear -F Hk. induction F as [|x y coords info R F IH]; constructor.
    + apply old_other; [exact R|]. intros C. apply Hk. left. exact C.
    + apply IH. intros C. apply Hk. now right.
  - destruct Hin as [Hin|Hin]; [congruence|]. destruct (IH Hn' Hin) as (d & d' & Eg & Ed & F'). exists d, d'. split; [exact Eg|]. split; [exact Ed|].
    constructor; [|exact F']. apply old_other; [exact R|]. exact N.
Qed.
Lemma if_block_off {B} (sp ep : str -> bool) l rest n eof (yes : list str -> list str -> result B) no : sp l = false -> if_block l rest sp ep n eof yes no = no rest.
Proof. intros H. unfold if_block, l_from_re. rewrite H. reflexivity. Qed.
Lemma scan_skip endp n f pre ls : Forall (fun x => endp x = false) pre ->
  l_scan endp n f (pre ++ ls) = let '(d, b, r) := l_scan endp n f ls in (pre ++ d, b, r).
Proof.
  induction 1 as [|x pre Hx _ IH]; cbn [app l_scan]; [now destruct (l_scan endp n f ls) as [[? ?] ?]|]. rewrite Hx, IH.
  now destruct (l_scan endp n f ls) as [[? ?] ?].
Qed.
Lemma l_bool_first l ls : ~ blanks l -> l_bool (l :: ls) = true.
Proof.
  intros H. unfold l_bool. cbn [existsb]. apply orb_true_iff. left. apply negb_true_iff. destruct (isempty (strip l)) eqn:E; [|reflexivity].
  now apply strip_empty in E.
Qed.
Lemma if_block_one {B} (sp ep : str -> bool) l body l' rest (yes : list str -> list str -> result B) no : sp l = true -> ~ blanks l ->
  Forall (fun x => ep x = false) body -> ep l' = true -> if_block l (body ++ l' :: rest) sp ep 1 false yes no = yes (l :: body ++ [l']) rest.
Proof.
  intros H1 Hb H2 H3. unfold if_block, l_from_re. rewrite H1. cbn [negb]. rewrite scan_skip by exact H2. cbn [l_scan Nat.eqb]. rewrite H3. cbn [orb].
  now rewrite l_bool_first.
Qed.
Lemma if_block_two {B} (sp ep : str -> bool) l b1 e1 b2 e2 rest (yes : list str -> list str -> result B) no : sp l = true -> ~ blanks l ->
  Forall (fun x => ep x = false) b1 -> ep e1 = true -> Forall (fun x => ep x = false) b2 -> ep e2 = true ->
  if_block l (b1 ++ e1 :: b2 ++ e2 :: rest) sp ep 2 false yes no = yes (l :: b1 ++ e1 :: b2 ++ [e2]) rest.
Proof.
  intros H1 Hb H2 H3 H4 H5. unfold if_block, l_from_re. rewrite H1. cbn [negb]. rewrite scan_skip by exact H2. cbn [l_scan Nat.eqb]. rewrite H3.
  rewrite scan_skip by exact H4. cbn [l_scan Nat.eqb]. rewrite H5. cbn [orb]. now rewrite l_bool_first.
Qed.
Lemma cut_nonblank w ws l : cut nonblank (w :: ws) l -> ~ blanks l.
Proof. intros H C. apply cut_not_blank in H. apply strip_empty in C. congruence. Qed.
Lemma fit_one n : numbers_ok [n] -> TextFiles.float_of (write_num n) = Ok (SpecCastep.float_of n).
Proof. intros H. inversion_clear H as [|? ? [Hw Hf] _]. unfold TextFiles.float_of. now rewrite builtin_num. Qed.
Lemma old_line_spec l it its coords info : old_row l (Some it) -> Forall old_ok its -> old_ok it -> NoDup (map fst coords) -> Forall2 (old_rel its) coords info ->
  In (SpecDict.atom_key (old_atom it)) (map fst coords) -> exists info', old_line info l = Ok info' /\ Forall2 (old_rel (its ++ [it])) coords info'.
Proof.
  intros H Ho Hi Hn F Hin. destruct (old_update its it coords info Ho Hi Hn F Hin) as (d & d' & Eg & Ed & F').
  eexists. split; [|exact F']. clear F' F Hin Hn. unfold old_line.
  inversion H as [|? sp ds w n ws Hb Hc Hd Hf|? sp ds w ns Hb Hc Hd Hf|? sp ds w s n ws Hb Hc Hm Hk Hd Hf Hs|]; subst; cbn [old_atom old_do] in *;
    rewrite (split_cut _ _ Hc), (py_int_digits _ Hd); cbn [bind].
  - change (str_eqb (text_of "Eigenvalue") ($"Eigenvalue")) with true. cbn iota. unfold dgetE.
    change (Header.atom_key sp (decimal ds)) with (SpecDict.atom_key (sp, decimal ds)). rewrite Eg. cbn [bind nthE nth_error]. rewrite (fit_one _ Hf). cbn [bind]. rewrite Ed. reflexivity.
  - change (str_eqb (text_of "Eigenvector") ($"Eigenvalue")) with false. change (str_eqb (text_of "Eigenvector") ($"Eigenvector")) with true. cbn iota. unfold dgetE.
    change (Header.atom_key sp (decimal ds)) with (SpecDict.atom_key (sp, decimal ds)). rewrite Eg. cbn [bind skipn]. rewrite (floats_tuple _ Hf). cbn [bind]. rewrite Ed. reflexivity.
  - destruct (str_eqb_spec w ($"Eigenvalue")) as [->|_]; [exfalso; apply mentions_iff in Hm; discriminate Hm|].
    destruct (str_eqb_spec w ($"Eigenvector")) as [->|_]; [exfalso; apply mentions_iff in Hm; discriminate Hm|].
    apply mentions_iff in Hm. rewrite Hm. cbn [nthE nth_error bind]. rewrite (fit_one _ Hf). cbn [bind]. unfold dgetE.
    change (Header.atom_key sp (decimal ds)) with (SpecDict.atom_key (sp, decimal ds)). rewrite Eg. cbn [bind].
    destruct Hk as (ks & Hk & ->). rewrite (normalise_key_cut _ _ Hk). injection Ed as <-. reflexivity.
Qed.
Lemma old_none_spec l info : old_row l None -> (if negb (isempty (strip l)) && negb (contains ($"[") l) then old_line info l else Ok info) = Ok info.
Proof.
  intros H. inversion H as [? Hb| | | |? sp ds w ws Hb Hc Hm Hw Hd]; subst.
  - destruct Hb as [Hb|Hb].
    + apply strip_empty in Hb. now rewrite Hb.
    + apply mentions_iff in Hb. rewrite Hb. now rewrite andb_false_r.
  - destruct (_ && _); [|reflexivity]. unfold old_line. rewrite (split_cut _ _ Hc), (py_int_digits _ Hd). cbn [bind].
    destruct (str_eqb_spec w ($"Eigenvalue")) as [->|_]; [exfalso; apply Hw; now left|].
    destruct (str_eqb_spec w ($"Eigenvector")) as [->|_]; [exfalso; apply Hw; right; now left|].
    now rewrite (not_true _ _ (mentions_iff _ _) Hm).
Qed.
Lemma old_row_item l it : old_row l (Some it) -> old_ok it /\ negb (isempty (strip l)) && negb (contains ($"[") l) = true.
Proof.
  intros H. inversion H as [|? sp ds w n ws Hb Hc Hd Hf|? sp ds w ns Hb Hc Hd Hf|? sp ds w s n ws Hb Hc Hm Hk Hd Hf Hs|]; subst;
    (split; [first [exact I|exact Hs]|]); rewrite (cut_not_blank _ _ _ Hc); now rewrite (not_true _ _ (mentions_iff _ _) Hb).
Qed.
Definition last_total (v : pyval) (ts : list (list (list num))) : pyval := fold_left (fun _ t => VList (map floats t)) ts v.
Lemma last_total_old ts : last_total VNone ts = old_total ts.
Proof. unfold last_total, old_total. destruct ts as [|t ts _] using rev_ind; [reflexivity|]. now rewrite fold_left_app, rev_app_distr. Qed.
Lemma rule_nonblank l : rule l -> ~ blanks l.
Proof. intros (n & e & -> & _) H. inversion_clear H as [|? ? H' _]. apply blank_iff in H'. discriminate. Qed.
Lemma tensor_nonblank l : tensor_start l -> ~ blanks l.
Proof.
  intros (a & b & ->) H. unfold blanks in H. rewrite !Forall_app in H. destruct H as (_ & H & _). inversion_clear H as [|? ? H' _]. apply blank_iff in H'. discriminate.
Qed.
Lemma old_loop coords ls its ts : old_rows ls its ts -> NoDup (map fst coords) -> Forall (fun it => In (SpecDict.atom_key (old_atom it)) (map fst coords)) its ->
  forall its0 total info n, length ls <= n -> Forall old_ok its0 -> Forall2 (old_rel its0) coords info ->
  exists info', file_loop old_step n (total, info) ls = Ok (last_total total ts, info') /\ Forall2 (old_rel (its0 ++ its)) coords info'.
Proof.
  intros H Hn. induction H as [|l o ls its ts [Hp1 Hp2] Hr _ IH|l body l' ls its ts Ht Hl Hb Hl' _ IH|l b1 e1 b2 e2 rows ls its ts Ht Hb He1 He2 Hrows _ IH]; intros Hin its0 total info n Hlen Ho F.
  - exists info. rewrite app_nil_r. split; [now destruct n|exact F].
  - destruct n as [|n]; [cbn in Hlen; lia|]. cbn [length] in Hlen. cbn [file_loop]. unfold old_step at 1. rewrite if_block_no by exact Hp1.
    rewrite if_block_off by (apply (not_true _ _ (rule_iff l)); exact Hp2). destruct o as [it|].
    + destruct (old_row_item _ _ Hr) as [Hi ->]. inversion_clear Hin as [|? ? Hin1 Hin2].
      destruct (old_line_spec l it its0 coords info Hr Ho Hi Hn F Hin1) as (info1 & E1 & F1). rewrite E1. cbn [bind].
      destruct (IH Hin2 (its0 ++ [it]) total info1 n ltac:(lia) ltac:(apply Forall_app; split; [exact Ho|now repeat constructor]) F1) as (info2 & E2 & F2).
      exists info2. split; [exact E2|]. now rewrite <- app_assoc in F2.
    + pose proof (old_none_spec l info Hr) as Q. destruct (negb (isempty (strip l)) && negb (contains ($"[") l)); [rewrite Q; cbn [bind]|]; apply IH; auto; lia.
  - destruct n as [|n]; [cbn in Hlen; lia|]. cbn [length] in Hlen. rewrite app_length in Hlen. cbn in Hlen. cbn [file_loop]. unfold old_step at 1. rewrite if_block_no by exact Ht.
    rewrite if_block_one; [|now apply rule_iff|now apply rule_nonblank| |now apply rule_iff].
    + cbn [bind]. apply IH; auto. lia.
    + eapply Forall_impl; [|exact Hb]. intros x Hx. now apply (not_true _ _ (rule_iff x)).
  - destruct n as [|n]; [cbn in Hlen; lia|]. cbn [length] in Hlen. rewrite app_length in Hlen. cbn in Hlen. rewrite app_length in Hlen. cbn in Hlen. cbn [file_loop]. unfold old_step at 1.
    apply Forall_app in Hb as [Hb1 Hb2]. assert (Q : forall b, Forall (fun x => ~ blanks x) b -> Forall (fun x => re_test EMPTY x = false) b).
    { intros b. apply Forall_impl. intros x. apply (not_true _ _ (empty_blanks x)). }
    rewrite if_block_two; [|now apply mentions_iff|now apply tensor_nonblank|now apply Q|now apply empty_blanks|now apply Q|now apply empty_blanks].
    rewrite (number_rows_spec _ _ Hrows). cbn [bind last_total fold_left]. apply IH; auto. lia.
Qed.
Lemma old_rows_end ls its ts l : old_rows ls its ts -> plain l -> old_row l None -> old_rows (ls ++ [l]) its ts.
Proof.
  intros H Hp Hr. induction H as [|l0 o ls its ts Hp0 Hr0 _ IH|l0 body l' ls its ts Ht Hl Hb Hl' _ IH|l0 b1 e1 b2 e2 rows ls its ts Ht Hb He1 He2 Hrows _ IH]; cbn [app].
  - apply (ors_row l None [] [] [] Hp Hr). constructor.
  - now apply ors_row.
  - rewrite <- app_assoc. now apply ors_title.
  - rewrite <- app_assoc. cbn [app]. rewrite <- app_assoc. now apply ors_tensor.
Qed.
Lemma said_end {A} (row : str -> option A -> Prop) ls its l : lines_say row ls its -> row l None -> lines_say row (ls ++ [l]) its.
Proof.
  intros H Hr. induction H as [|l0 o ls its Hl _ IH]; cbn [app]; [apply (ls_cons row l None [] []); [exact Hr|constructor]|]. now constructor.
Qed.
Lemma old_start_rel c : (forall k, In k (map fst c) -> exists a, k = SpecDict.atom_key a) ->
  Forall2 (old_rel []) c (map (fun kv => (fst kv, [(kstr "coords", snd kv)])) c).
Proof.
  intros H. induction c as [|[k v] c IH]; [constructor|]. constructor.
  - split; [reflexivity|]. destruct (H k ltac:(now left)) as (a & E). exists a. split; [exact E|]. cbn [flat_map snd fst]. split; [cbn; repeat constructor; intros []|].
    intros k' v'. change (dict_of key_eqb [named "coords" v]) with [named "coords" v]. split; [now left|]. intros [H'|(vs & Hv & -> & Hc)]; [exact H'|]. cbn in Hc. inversion Hc. subst vs. now destruct Hv.
  - apply IH. intros k' Hk'. apply H. now right.
Qed.
(** ** Closing lines say nothing *)
Lemma one_word_gap a k b x c1 sp c2 y : blanks a -> blanks b -> Forall nonblank k -> nonblank c1 -> blank sp -> nonblank c2 ->
  a ++ k ++ b <> x ++ c1 :: sp :: c2 :: y.
Proof.
  intros Ha Hb Hk H1 Hs H2. revert x. induction Ha as [|ca a Hca Ha IH]; intros x E.
  - cbn [app] in E. revert x E. induction Hk as [|ck k Hck Hk IH]; intros x E.
    + cbn in E. subst b. unfold blanks in Hb. rewrite Forall_app in Hb. destruct Hb as [_ Hb]. inversion_clear Hb. now apply H1.
    + destruct x as [|cx x]; [|injection E as _ E; now apply (IH x)]. injection E as _ E. destruct k as [|ck' k].
      * cbn in E. subst b. inversion_clear Hb as [|? ? _ Hb']. inversion_clear Hb'. now apply H2.
      * injection E as -> _. inversion_clear Hk as [|? ? Hn _]. now apply Hn.
  - destruct x as [|cx x]; [injection E as -> _; now apply H1|]. injection E as _ E. now apply (IH x).
Qed.
Definition shut (name : str) : str := text_of "[/" ++ name ++ text_of "]".
Lemma shut_nonblank name : word name -> Forall nonblank (shut name).
Proof.
  intros [_ H]. unfold shut. rewrite !Forall_app. split; [repeat constructor; intros C; apply blank_iff in C; discriminate|].
  split; [|repeat constructor; intros C; apply blank_iff in C; discriminate]. apply words_iff in H. rewrite forallb_forall in H.
  apply Forall_forall. intros c Hc C. apply blank_iff in C. specialize (H c Hc). now rewrite (space_not_word _ C) in H.
Qed.
Lemma closing_parts l : closing l -> exists name a b, blanks a /\ blanks b /\ word name /\ l = a ++ shut name ++ b.
Proof.
  intros (name & a & b & Ha & Hb & Hw & ->). exists name, a, b. split; [exact Ha|]. split; [exact Hb|]. split; [exact Hw|]. unfold shut. now rewrite <- !app_assoc.
Qed.
Lemma closing_not_begins w l : closing l -> match text_of w with c :: _ => is_space c = false /\ c <> "["%char | [] => False end -> ~ begins w l.
Proof.
  intros H Hw [r E]. apply closing_parts in H as (name & a & b & Ha & _ & _ & ->). destruct (text_of w) as [|c t]; [exact Hw|]. destruct Hw as [Hc Hc'].
  destruct Ha as [|x a Hx Ha]; cbn in E; [injection E as E _; congruence|]. injection E as -> _. apply blank_iff in Hx. congruence.
Qed.
Lemma closing_cut l : closing l -> exists name, word name /\ cut nonblank [shut name] l.
Proof.
  intros H. apply closing_parts in H as (name & a & b & Ha & Hb & Hw & ->). exists name. split; [exact Hw|]. unfold blanks in Ha, Hb. rewrite Forall_forall in Ha, Hb.
  pose proof (shut_nonblank name Hw) as Hn. rewrite Forall_forall in Hn.
  apply cut_cons; [intros c Hc Q; apply Q; now apply Ha|discriminate|exact Hn| |].
  - intros c t -> Q. apply Q, Hb. now left.
  - constructor. intros c Hc Q. apply Q. now apply Hb.
Qed.
Lemma closing_calc l : closing l -> calc_row l None.
Proof.
  intros H. destruct (startswith ($"[") l) eqn:E; [apply cr_bracket; now apply begins_iff|]. apply closing_parts in H as (name & a & b & Ha & Hb & Hw & ->).
  apply cr_empty; [|exact Ha|exact Hb|discriminate|now apply shut_nonblank]. intros C. apply begins_iff in C. congruence.
Qed.
Lemma closing_site l : closing l -> site_row l None.
Proof. intros H. apply sr_other; apply (closing_not_begins _ _ H); cbn; (split; [reflexivity|discriminate]). Qed.
Lemma closing_res ver l : closing l -> res_row ver l None.
Proof.
  intros H. destruct (closing_cut l H) as (name & Hw & Hc). apply rr_other with (w := shut name) (ws := []).
  - apply (closing_not_begins _ _ H); cbn; (split; [reflexivity|discriminate]).
  - exact Hc.
  - intros C. cbn in C. repeat (destruct C as [C|C]; [discriminate C|]). exact C.
  - intros [r C]. discriminate C.
Qed.
Lemma closing_old l : closing l -> plain l /\ old_row l None.
Proof.
  intros H. split; [split|].
  - intros (x & y & E). apply closing_parts in H as (name & a & b & Ha & Hb & Hw & ->).
    refine (one_word_gap a (shut name) b (x ++ text_of "TOTA") "L" " " "S" (text_of "hielding Tensor" ++ y) Ha Hb (shut_nonblank _ Hw) _ _ _ _).
    + intros C. apply blank_iff in C. discriminate.
    + now apply blank_iff.
    + intros C. apply blank_iff in C. discriminate.
    + rewrite E, <- app_assoc. reflexivity.
  - intros (n & e & E & _). apply closing_parts in H as (name & a & b & Ha & _ & _ & ->). destruct Ha as [|c a Hc Ha]; cbn in E; [discriminate E|].
    injection E as -> _. apply blank_iff in Hc. discriminate.
  - apply or_blank. right. apply closing_parts in H as (name & a & b & _ & _ & _ & ->). exists a, ("/"%char :: name ++ text_of "]" ++ b). unfold shut. now rewrite <- !app_assoc.
Qed.
Lemma opening_nonblank name l : opening name l -> ~ blanks l.
Proof.
  intros (a & b & _ & _ & _ & ->) H. unfold blanks in H. rewrite !Forall_app in H. destruct H as (_ & H & _). inversion_clear H as [|? ? H' _]. apply blank_iff in H'. discriminate.
Qed.
(** ** Files *)
Definition coords_ok (cs : option dict) (accum : dict) : Prop :=
  match cs with
  | None => True
  | Some c => (exists d, dget key_eqb accum (kstr "atoms") = Some (VDict false d) /\ dget key_eqb d (kstr "coords") = Some (VDict false c)) /\
      NoDup (map fst c) /\ forall k, In k (map fst c) -> exists a, k = SpecDict.atom_key a
  end.
Lemma coords_ok_set cs accum k v : coords_ok cs accum -> k <> kstr "atoms" -> coords_ok cs (dset key_eqb accum k v).
Proof.
  destruct cs as [c|]; [|auto]. intros ((d & E1 & E2) & H) Hk. split; [|exact H]. exists d. split; [|exact E2]. rewrite (dget_dset key_eqb key_eqb_spec).
  destruct (key_eqb_spec k (kstr "atoms")); [congruence|exact E1].
Qed.
Lemma coords_keys its k : In k (map fst (dict_of key_eqb (flat_map site_coords its))) -> exists a, k = SpecDict.atom_key a.
Proof.
  intros H. apply keys_dict_of in H. apply in_map_iff in H as ([k' v] & <- & H). apply in_flat_map in H as (it & _ & H). destruct it as [| |a ns]; [destruct H|destruct H|].
  destruct H as [H|[]]. injection H as <- _. now exists a.
Qed.
Lemma step_block name l body l' rest accum ver : enclosed name l body l' ->
  magres_step (accum, ver) l (body ++ l' :: rest) =
       (let body := body ++ [l'] in
       if str_eqb name ($"calculation") then
         calc <- foldM calc_line body [] ;;
         v <- calc_version calc ;;
         Ok ((dset key_eqb accum (kstr "calc") (VDict false calc), Some v), rest)
       else if str_eqb name ($"atoms") then
         a <- atoms_block body ;; Ok ((dset key_eqb accum (kstr "atoms") (VDict false a), ver), rest)
       else if str_eqb name ($"magres") then
         match ver with
         | Some v => m <- magres_block v body ;; Ok ((dset key_eqb accum (kstr "magres") (VDict true m), ver), rest)
         | None => Err UnboundLocalError
         end
       else if str_eqb name ($"magres_old") then
         ' (t, a) <- magres_old_block (dget key_eqb accum (kstr "atoms")) body ;;
         Ok ((dset key_eqb (dset key_eqb accum (kstr "total_shielding") t) (kstr "atom_info") a, ver), rest)
       else Ok ((accum, ver), rest)).
Proof.
  intros (H1 & H2 & H3). unfold magres_step. rewrite if_block_one; [|now apply opening_match with name|now apply opening_nonblank with name| |now apply closing_iff].
  - cbn [nthE nth_error bind skipn]. now rewrite (opening_name _ _ H1).
  - eapply Forall_impl; [|exact H2]. intros x. apply (not_true _ _ (closing_iff x)).
Qed.
Lemma old_block_spec c d body its ts : dget key_eqb d (kstr "coords") = Some (VDict false c) -> NoDup (map fst c) ->
  (forall k, In k (map fst c) -> exists a, k = SpecDict.atom_key a) -> old_rows body its ts -> Forall (fun it => ~ absent c (SpecDict.atom_key (old_atom it))) its ->
  exists out, magres_old_block (Some (VDict false d)) body = Ok (old_total ts, VDict false out) /\ old_atoms_said its c out.
Proof.
  intros Hc Hn Hk Hr Ha. unfold magres_old_block, old_start, dgetE. rewrite Hc. cbn [bind].
  assert (Hin : Forall (fun it => In (SpecDict.atom_key (old_atom it)) (map fst c)) its).
  { eapply Forall_impl; [|exact Ha]. intros it H. destruct (memb (SpecDict.atom_key (old_atom it)) (map fst c)) eqn:M; [now apply memb_iff|].
    exfalso. apply H. intros C. apply memb_iff in C. congruence. }
  destruct (old_loop c body its ts Hr Hn Hin [] VNone _ (length body) (Nat.le_refl _) (Forall_nil _) (old_start_rel c Hk)) as (info & E & F).
  unfold over_file. rewrite E. cbn [bind]. rewrite last_total_old. eexists. split; [reflexivity|]. cbn [app] in F.
  clear -F. unfold old_atoms_said. induction F as [|kc ki c info (E & a & Ea & G) _ IH]; [constructor|]. cbn [map]. constructor; [|exact IH].
  split; [exact E|]. exists a. split; [exact Ea|]. exists (dict_of key_eqb (named "coords" (snd kc) :: flat_map (old_sets a) its)), (snd ki).
  split; [apply dict_of_merged|]. now split.
Qed.
Lemma magres_loop ver cs ls ps : magres_parts ver cs ls ps -> forall es n, length ls <= n -> coords_ok cs (dict_of key_eqb es) ->
  exists ess ver', file_loop magres_step n (dict_of key_eqb es, ver) ls = Ok (dict_of key_eqb (es ++ concat ess), ver') /\ Forall2 magres_said ps ess.
Proof.
  induction 1 as [ver cs|ver cs l ls ps Ho _ IH|ver cs name l body l' ls ps He Hu _ IH|ver cs l body l' kvs v ls ps He Hr Hv _ IH|ver cs l body l' its c ls ps He Hr Hc _ IH|ver cs l body l' its ls ps He Hr _ IH|ver c l body l' its ts ls ps He Hr Ha _ IH]; intros es n Hn Hcs.
  1: { exists [], ver. rewrite app_nil_r. split; [now destruct n|constructor]. }
  all: destruct n as [|n]; [cbn in Hn; lia|]; cbn [length] in Hn; try (rewrite app_length in Hn; cbn [length] in Hn); cbn [file_loop].
  - unfold magres_step at 1. rewrite if_block_off; [cbn [bind]; apply IH; [lia|exact Hcs]|]. apply (not_true _ _ (opening_iff l)). intros [name C]. now apply (Ho name).
  - rewrite (step_block _ _ _ _ _ _ _ He). cbv zeta.
    assert (Q : forall w, In w (map text_of ["calculation"; "atoms"; "magres"; "magres_old"]%string) -> str_eqb name w = false).
    { intros w Hw. destruct (str_eqb_spec name w) as [->|_]; [now destruct Hu|reflexivity]. }
    rewrite !Q by (cbn; auto). cbn [bind]. apply IH; [lia|exact Hcs].
  - rewrite (step_block _ _ _ _ _ _ _ He). cbv zeta. change (str_eqb (text_of "calculation") ($"calculation")) with true. cbn iota.
    destruct (calc_spec (body ++ [l']) kvs v (said_end _ _ _ _ Hr (closing_calc _ (proj2 (proj2 He)))) Hv) as [E1 E2]. rewrite E1. cbn [bind]. rewrite E2. cbn [bind].
    rewrite dict_of_app1. destruct (IH (es ++ [(kstr "calc", VDict false (dict_of key_eqb (map calc_entry kvs)))]) n ltac:(lia)) as (ess & ver' & E & F).
    { rewrite <- dict_of_app1. apply coords_ok_set; [exact Hcs|discriminate]. }
    exists ([(kstr "calc", VDict false (dict_of key_eqb (map calc_entry kvs)))] :: ess), ver'. split; [rewrite E; cbn [concat]; now rewrite <- app_assoc|].
    constructor; [|exact F]. apply ms_calc, said_dict.
  - rewrite (step_block _ _ _ _ _ _ _ He). cbv zeta. change (str_eqb (text_of "atoms") ($"calculation")) with false. change (str_eqb (text_of "atoms") ($"atoms")) with true. cbn iota.
    rewrite (atoms_spec (body ++ [l']) its (said_end _ _ _ _ Hr (closing_site _ (proj2 (proj2 He))))). cbn [bind]. apply merged_is in Hc. subst c.
    set (d := named "units" _ :: named "coords" _ :: dict_of key_eqb (flat_map site_lattice its)).
    rewrite dict_of_app1. destruct (IH (es ++ [(kstr "atoms", VDict false d)]) n ltac:(lia)) as (ess & ver' & E & F).
    { rewrite <- dict_of_app1. split; [|split; [apply nodup_dict_of|apply coords_keys]]. exists d. split; [|reflexivity].
      rewrite (dget_dset key_eqb key_eqb_spec). now destruct (key_eqb_spec (kstr "atoms") (kstr "atoms")). }
    exists ([(kstr "atoms", VDict false d)] :: ess), ver'. split; [rewrite E; cbn [concat]; now rewrite <- app_assoc|].
    constructor; [|exact F]. apply ms_atoms. constructor; [apply said_dict|apply said_dict|apply dict_of_merged].
  - rewrite (step_block _ _ _ _ _ _ _ He). cbv zeta. change (str_eqb (text_of "magres") ($"calculation")) with false. change (str_eqb (text_of "magres") ($"atoms")) with false.
    change (str_eqb (text_of "magres") ($"magres")) with true. cbn iota.
    destruct (magres_block_spec ver (body ++ [l']) its (said_end _ _ _ _ Hr (closing_res _ _ (proj2 (proj2 He))))) as (d & E1 & E2). rewrite E1. cbn [bind].
    rewrite dict_of_app1. destruct (IH (es ++ [(kstr "magres", VDict true d)]) n ltac:(lia)) as (ess & ver' & E & F).
    { rewrite <- dict_of_app1. apply coords_ok_set; [exact Hcs|discriminate]. }
    exists ([(kstr "magres", VDict true d)] :: ess), ver'. split; [rewrite E; cbn [concat]; now rewrite <- app_assoc|].
    constructor; [|exact F]. now apply ms_res.
  - rewrite (step_block _ _ _ _ _ _ _ He). cbv zeta. change (str_eqb (text_of "magres_old") ($"calculation")) with false. change (str_eqb (text_of "magres_old") ($"atoms")) with false.
    change (str_eqb (text_of "magres_old") ($"magres")) with false. change (str_eqb (text_of "magres_old") ($"magres_old")) with true. cbn iota.
    pose proof Hcs as ((d & Ed & Ec) & Hnc & Hkc). destruct (closing_old _ (proj2 (proj2 He))) as [Hp Hl].
    destruct (old_block_spec c d (body ++ [l']) its ts Ec Hnc Hkc (old_rows_end _ _ _ _ Hr Hp Hl) Ha) as (out & E1 & E2). rewrite Ed, E1. cbn [bind].
    rewrite !dict_of_app1. destruct (IH ((es ++ [(kstr "total_shielding", old_total ts)]) ++ [(kstr "atom_info", VDict false out)]) n ltac:(lia)) as (ess & ver' & E & F).
    { rewrite <- !dict_of_app1. do 2 (apply coords_ok_set; [|discriminate]). exact Hcs. }
    exists ([(kstr "total_shielding", old_total ts); (kstr "atom_info", VDict false out)] :: ess), ver'. split; [rewrite E; cbn [concat]; now rewrite <- !app_assoc|].
    constructor; [|exact F]. now apply ms_old.
Qed.
Theorem magres_exact ls ps : magres_parts None None ls ps -> exists d, parse_magres_file ls = Ok (VDict true d) /\ magres_says ps d.
Proof.
  intros H. destruct (magres_loop _ _ _ _ H [] (length ls) (Nat.le_refl _) I) as (ess & ver & E & F). exists (dict_of key_eqb (concat ess)).
  split; [|exists ess; split; [exact F|apply dict_of_merged]]. unfold parse_magres_file, over_file.
  change (dict_of key_eqb (@nil (key * pyval))) with (@nil (key * pyval)) in E. rewrite E. reflexivity.
Qed.
