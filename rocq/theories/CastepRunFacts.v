(** The runs of a .castep file: what the branches do to the current run. *)
From Verif Require Import PyBase PyVal PyFacts IntStr TextParsersFacts TypeConv Stream Header SpecBands SpecCastepRun CastepRest CastepFile.
From Verif Require DictFacts.
Local Open Scope list_scope.
Local Open Scope nat_scope.

(** ** Grouping by names *)
Section Grouped.
  Context {A : Type} (same : A -> A -> bool) (inj : A -> key).
  Hypothesis same_eq : forall a b, same a b = true <-> a = b.
  Hypothesis inj_eq : forall a b, inj a = inj b -> a = b.
  Lemma first_seen_snoc l x : first_seen same (l ++ [x]) = if existsb (same x) (first_seen same l) then first_seen same l else first_seen same l ++ [x].
  Proof. unfold first_seen. now rewrite fold_left_app. Qed.
  Lemma seen_in x l : existsb (same x) l = true <-> In x l.
  Proof. rewrite existsb_exists. split; [intros (y & I & E); apply same_eq in E; now subst|]. intros I. exists x. split; [exact I|now apply same_eq]. Qed.
  Lemma first_seen_in l x : In x (first_seen same l) <-> In x l.
  Proof.
    induction l as [|y l IH] using rev_ind; [reflexivity|]. rewrite first_seen_snoc, in_app_iff. destruct (existsb _ _) eqn:E.
    - rewrite IH. split; [now left|]. intros [H|[->|[]]]; [exact H|]. apply seen_in in E. now apply IH.
    - rewrite in_app_iff, IH. reflexivity.
  Qed.
  Lemma first_seen_nodup l : NoDup (first_seen same l).
  Proof.
    induction l as [|y l IH] using rev_ind; [constructor|]. rewrite first_seen_snoc. destruct (existsb _ _) eqn:E; [exact IH|].
    apply (NoDup_Add (a := y) (l := first_seen same l)); [|split; [exact IH|]].
    - rewrite <- (app_nil_r (first_seen same l)) at 1. apply Add_app.
    - intros I. apply seen_in in I. congruence.
  Qed.
  Lemma key_same a b : key_eqb (inj a) (inj b) = same a b.
  Proof. apply eq_true_iff_eq. rewrite key_eqb_eq, same_eq. split; [apply inj_eq|intros ->; reflexivity]. Qed.
  Lemma same_sym a b : same a b = same b a.
  Proof. apply eq_true_iff_eq. rewrite !same_eq. split; congruence. Qed.
  Lemma grouped_get {V} (f : A -> V) ks k : dget key_eqb (map (fun k => (inj k, f k)) ks) (inj k) = if existsb (same k) ks then Some (f k) else None.
  Proof.
    induction ks as [|k' ks IH]; [reflexivity|]. cbn [map dget existsb]. rewrite key_same, (same_sym k k'). destruct (same k' k) eqn:E; [|exact IH].
    apply same_eq in E. now subst.
  Qed.
  Lemma grouped_set {V} (f f' : A -> V) ks k : NoDup ks -> (forall k', k' <> k -> f' k' = f k') ->
    dset key_eqb (map (fun k => (inj k, f k)) ks) (inj k) (f' k) = map (fun k => (inj k, f' k)) (if existsb (same k) ks then ks else ks ++ [k]).
  Proof.
    intros N H. induction ks as [|k' ks IH]; [reflexivity|]. inversion_clear N as [|? ? N1 N2]. cbn [map dset existsb].
    rewrite key_same, (same_sym k k'). destruct (same k' k) eqn:E; cbn [orb].
    - apply same_eq in E. subst k'. cbn [map]. f_equal. apply map_ext_in. intros a I. rewrite H; [reflexivity|]. now intros ->.
    - assert (k' <> k) by (intros ->; rewrite (proj2 (same_eq k k) eq_refl) in E; discriminate). rewrite (IH N2). destruct (existsb (same k) ks); cbn [app map]; now rewrite H.
  Qed.
End Grouped.
Lemma string_same a b : String.eqb a b = true <-> a = b.
Proof. apply String.eqb_eq. Qed.
Lemma text_same a b : same_text a b = true <-> a = b.
Proof. unfold same_text. destruct (list_eq_dec ascii_dec a b); split; congruence. Qed.
Lemma name_inj a b : SpecCastep.name a = SpecCastep.name b -> a = b.
Proof.
  intros [= H]. unfold SpecBands.text_of in H. rewrite <- (string_of_list_ascii_of_string a), <- (string_of_list_ascii_of_string b). now f_equal.
Qed.
Lemma kstr_inj a b : KStr a = KStr b -> a = b.
Proof. congruence. Qed.

(** ** One more effect *)
Lemma of_name_snoc k es e : of_name k (es ++ [e]) = of_name k es ++ (if String.eqb (about e) k then [e] else []).
Proof. unfold of_name. rewrite filter_app. cbn [filter]. now destruct (String.eqb (about e) k). Qed.
Lemma of_second_snoc s es e : of_second s (es ++ [e]) = of_second s es ++ (if same_text (second_name e) s then [e] else []).
Proof. unfold of_second. rewrite filter_app. cbn [filter]. now destruct (same_text (second_name e) s). Qed.
Lemma other_value b k es e : about e <> k -> run_value b k (es ++ [e]) = run_value b k es.
Proof.
  intros H. unfold run_value. rewrite of_name_snoc. destruct (String.eqb_spec (about e) k); [contradiction|]. now rewrite app_nil_r.
Qed.
Lemma run_snoc es e : dset key_eqb (run_of false es) (SpecCastep.name (about e)) (run_value false (about e) (es ++ [e])) = run_of false (es ++ [e]).
Proof.
  unfold run_of. rewrite (grouped_set String.eqb SpecCastep.name string_same name_inj _ (fun k => run_value false k (es ++ [e])) _ (about e)).
  - rewrite map_app. cbn [map]. now rewrite first_seen_snoc.
  - apply first_seen_nodup, string_same.
  - intros k' H. apply other_value. congruence.
Qed.
Lemma run_get b es k : dget key_eqb (run_of b es) (SpecCastep.name k) = if existsb (String.eqb k) (map about es) then Some (run_value b k es) else None.
Proof.
  unfold run_of. rewrite (grouped_get String.eqb SpecCastep.name string_same name_inj). enough (E : existsb (String.eqb k) (first_seen String.eqb (map about es)) = existsb (String.eqb k) (map about es)) by now rewrite E.
  apply eq_true_iff_eq. rewrite !(seen_in String.eqb string_same). apply first_seen_in, string_same.
Qed.
(** Every name is always used in the same way. *)
Inductive way := IsSet | IsAppended | IsFiled | IsEntered.
Definition appended_names : list string := ["born"; "magres"; "phonon_symmetry_analysis"; "scf"; "memory_estimate"; "warning"; "pspot_detail"; "wvfn_line_min"; "occupancies";
  "target_stress"; "raman"; "minimisation"; "pair_params"; "pspot_debug"]%string.
Definition entered_names : list string := ["elastic"; "delocalised_internal"; "berry_phase"]%string.
Definition filed_names : list string := ["energies"; "forces"; "stresses"]%string.
Definition way_of (k : string) : way :=
  if existsb (String.eqb k) appended_names then IsAppended else if existsb (String.eqb k) filed_names then IsFiled
  else if existsb (String.eqb k) entered_names then IsEntered else IsSet.
Definition proper (e : effect) : Prop :=
  match e with
  | Sets k _ => way_of k = IsSet /\ k <> "solvation"%string
  | Appends k _ => way_of k = IsAppended
  | Files k _ v => way_of k = IsFiled /\ (k = "energies"%string -> exists f, v = VFloat f)
  | Enters k _ _ => way_of k = IsEntered
  end.
Lemma named_in k es : existsb (String.eqb k) (map about es) = match of_name k es with [] => false | _ => true end.
Proof.
  induction es as [|e es IH]; [reflexivity|]. cbn [map existsb of_name filter]. fold (of_name k es). rewrite String.eqb_sym.
  destruct (String.eqb (about e) k); [reflexivity|exact IH].
Qed.
Lemma of_name_in k es e : In e (of_name k es) -> In e es /\ about e = k.
Proof. unfold of_name. rewrite filter_In. intros [H E]. now apply String.eqb_eq in E. Qed.
Lemma last_own k es d e : Forall proper es -> of_name k es <> [] -> last (of_name k es) d = e -> proper e /\ about e = k.
Proof.
  intros P N E. destruct (exists_last N) as (l & x & H). rewrite H, last_last in E. subst x.
  assert (I : In e (of_name k es)) by (rewrite H; apply in_or_app; right; now left). apply of_name_in in I as [I A]. split; [|exact A].
  rewrite Forall_forall in P. now apply P.
Qed.
Lemma appended_value b k es : Forall proper es -> way_of k = IsAppended -> of_name k es <> [] -> run_value b k es = VList (map value (of_name k es)).
Proof.
  intros P W N. unfold run_value. destruct (last (of_name k es) _) as [k' v|k' v|k' s v|k' s v] eqn:E; apply (last_own _ _ _ _ P N) in E as [E1 E2]; cbn in E1, E2; subst k'.
  - destruct E1. congruence.
  - reflexivity.
  - destruct E1. congruence.
  - congruence.
Qed.
Definition filed (tuples : bool) (own : list effect) : list (key * pyval) :=
  map (fun s => (KStr s, (if tuples then VTuple else VList) (map value (of_second s own)))) (first_seen same_text (map second_name own)).
Lemma filed_value b k es : Forall proper es -> way_of k = IsFiled -> of_name k es <> [] ->
  run_value b k es = VDict (negb (b && String.eqb k "energies")) (filed (b && String.eqb k "energies") (of_name k es)).
Proof.
  intros P W N. unfold run_value. destruct (last (of_name k es) _) as [k' v|k' v|k' s v|k' s v] eqn:E; apply (last_own _ _ _ _ P N) in E as [E1 E2]; cbn in E1, E2; subst k'.
  - destruct E1. congruence.
  - congruence.
  - reflexivity.
  - congruence.
Qed.
Definition entered (own : list effect) : list (key * pyval) :=
  map (fun s => (s, value (last (of_key s own) (Sets "" VNone)))) (first_seen key_eqb (map second_key own)).
Lemma of_key_in s own : In s (map second_key own) -> of_key s own <> [].
Proof.
  intros I E. apply in_map_iff in I as (e & <- & I). assert (X : In e (of_key (second_key e) own)) by (apply filter_In; split; [exact I|now apply key_eqb_eq]).
  rewrite E in X. contradiction.
Qed.
Lemma last_any {A} (l : list A) d d' : l <> [] -> last l d = last l d'.
Proof. intros H. destruct (exists_last H) as (l' & x & ->). now rewrite !last_last. Qed.
Lemma entered_value b k es : Forall proper es -> way_of k = IsEntered -> of_name k es <> [] -> run_value b k es = VDict false (entered (of_name k es)).
Proof.
  intros P W N. unfold run_value. destruct (last (of_name k es) _) as [k' v|k' v|k' s v|k' s v] eqn:E; apply (last_own _ _ _ _ P N) in E as [E1 E2]; cbn in E1, E2; subst k'.
  - destruct E1. congruence.
  - congruence.
  - destruct E1. congruence.
  - f_equal. unfold entered. apply map_ext_in. intros x I. apply first_seen_in in I; [|intros; apply key_eqb_eq]. f_equal. f_equal. apply last_any. now apply of_key_in.
Qed.
Lemma proper_snoc es e : Forall proper es -> proper e -> Forall proper (es ++ [e]).
Proof. intros P H. apply Forall_app. now split; [|constructor]. Qed.
Lemma own_snoc k es e : about e = k -> of_name k (es ++ [e]) = of_name k es ++ [e].
Proof. intros <-. rewrite of_name_snoc. now rewrite String.eqb_refl. Qed.
Lemma snoc_not_nil {A} (l : list A) x : l ++ [x] <> [].
Proof. now destruct l. Qed.

Lemma run_sets es k v : dset key_eqb (run_of false es) (kstr k) v = run_of false (es ++ [Sets k v]).
Proof.
  rewrite <- run_snoc. cbn [about]. apply f_equal3; try reflexivity. unfold run_value. rewrite own_snoc by reflexivity. now rewrite last_last.
Qed.
Lemma run_appends es k v : Forall proper es -> way_of k = IsAppended -> append_to (run_of false es) (kstr k) v = Ok (run_of false (es ++ [Appends k v])).
Proof.
  intros P W. unfold append_to. change (kstr k) with (SpecCastep.name k). rewrite run_get, named_in.
  assert (E : run_value false k (es ++ [Appends k v]) = VList (map value (of_name k es) ++ [v])).
  { rewrite appended_value; [|apply proper_snoc; [exact P|exact W]|exact W|rewrite own_snoc by reflexivity; apply snoc_not_nil].
    rewrite own_snoc by reflexivity. now rewrite map_app. }
  pose proof (run_snoc es (Appends k v)) as R. cbn [about] in R. rewrite E in R. destruct (of_name k es) as [|x l] eqn:O.
  - cbn [map app] in R. now rewrite R.
  - rewrite appended_value by (try assumption; rewrite O; discriminate). rewrite O. now rewrite R.
Qed.
Lemma run_files es k s v : Forall proper es -> proper (Files k s v) ->
  with_dict true TypeError (run_of false es) (kstr k) (fun d => append_to d (KStr s) v) = Ok (run_of false (es ++ [Files k s v])).
Proof.
  intros P [W Q]. unfold with_dict. change (kstr k) with (SpecCastep.name k). rewrite run_get, named_in.
  assert (E : run_value false k (es ++ [Files k s v]) = VDict true (filed false (of_name k es ++ [Files k s v]))).
  { rewrite filed_value; [|apply proper_snoc; [exact P|now split]|exact W|rewrite own_snoc by reflexivity; apply snoc_not_nil].
    now rewrite own_snoc by reflexivity. }
  pose proof (run_snoc es (Files k s v)) as R. cbn [about] in R. rewrite E in R.
  assert (G : append_to (filed false (of_name k es)) (KStr s) v = Ok (filed false (of_name k es ++ [Files k s v]))).
  { set (own := of_name k es). unfold append_to, filed at 1.
    rewrite (grouped_get same_text KStr text_same kstr_inj (fun s => VList (map value (of_second s own)))).
    pose proof (grouped_set same_text KStr text_same kstr_inj (fun s => VList (map value (of_second s own)))
      (fun s' => VList (map value (of_second s' (own ++ [Files k s v])))) (first_seen same_text (map second_name own)) s
      (first_seen_nodup same_text text_same _)) as S.
    assert (S' : dset key_eqb (filed false own) (KStr s) (VList (map value (of_second s own) ++ [v])) = filed false (own ++ [Files k s v])).
    { unfold filed at 2. rewrite map_app. cbn [map second_name]. rewrite first_seen_snoc. rewrite <- S.
      - apply f_equal3; try reflexivity. rewrite of_second_snoc. cbn [second_name]. rewrite (proj2 (text_same s s) eq_refl), map_app. reflexivity.
      - intros s' Hs. rewrite of_second_snoc. cbn [second_name]. destruct (same_text s s') eqn:Q'; [apply text_same in Q'; congruence|]. now rewrite app_nil_r. }
    destruct (existsb (same_text s) _) eqn:Ex.
    - now rewrite S'.
    - assert (O : of_second s own = []).
      { apply not_true_iff_false in Ex. rewrite seen_in in Ex by exact text_same. rewrite first_seen_in in Ex by exact text_same.
        unfold of_second. clear -Ex. induction own as [|e own IH]; [reflexivity|]. cbn [filter]. destruct (same_text (second_name e) s) eqn:Q.
        - exfalso. apply Ex. left. now apply text_same in Q.
        - apply IH. intros H. apply Ex. now right. }
      rewrite O in S'. cbn [map app] in S'. now rewrite S'. }
  destruct (of_name k es) as [|x l] eqn:O.
  - change (@nil (key * pyval)) with (filed false []). rewrite G. cbn [bind]. now rewrite R.
  - rewrite filed_value by (try assumption; rewrite O; discriminate). cbn [andb negb]. rewrite O, G. cbn [bind]. now rewrite R.
Qed.
Lemma of_key_snoc s es e : of_key s (es ++ [e]) = of_key s es ++ (if key_eqb (second_key e) s then [e] else []).
Proof. unfold of_key. rewrite filter_app. cbn [filter]. now destruct (key_eqb (second_key e) s). Qed.
Lemma entered_snoc own k s v : entered (own ++ [Enters k s v]) = dset key_eqb (entered own) s v.
Proof.
  unfold entered. rewrite map_app. cbn [map second_key]. rewrite first_seen_snoc.
  pose proof (grouped_set key_eqb (fun x => x) key_eqb_eq (fun a b E => E) (fun s => value (last (of_key s own) (Sets "" VNone)))
    (fun s' => value (last (of_key s' (own ++ [Enters k s v])) (Sets "" VNone))) (first_seen key_eqb (map second_key own)) s (first_seen_nodup key_eqb key_eqb_eq _)) as G.
  cbn beta in G. rewrite <- G.
  - f_equal. rewrite of_key_snoc. cbn [second_key]. rewrite (proj2 (key_eqb_eq s s) eq_refl), last_last. reflexivity.
  - intros s' Hs. rewrite of_key_snoc. cbn [second_key]. destruct (key_eqb s s') eqn:Q; [apply key_eqb_eq in Q; congruence|]. now rewrite app_nil_r.
Qed.
Lemma run_enter es k s v : Forall proper es -> way_of k = IsEntered ->
  run_of false (es ++ [Enters k s v]) = dset key_eqb (run_of false es) (kstr k) (VDict false (dset key_eqb (entered (of_name k es)) s v)).
Proof.
  intros P W. pose proof (run_snoc es (Enters k s v)) as R. cbn [about] in R. rewrite <- R. change (kstr k) with (SpecCastep.name k). f_equal.
  rewrite entered_value; [|apply proper_snoc; [exact P|exact W]|exact W|rewrite own_snoc by reflexivity; apply snoc_not_nil].
  rewrite own_snoc by reflexivity. now rewrite <- (entered_snoc _ k).
Qed.
Lemma run_enters k d : way_of k = IsEntered -> d <> [] -> forall es, Forall proper es ->
  run_of false (es ++ map (fun e => Enters k (fst e) (snd e)) d) = dset key_eqb (run_of false es) (kstr k) (VDict false (dupdate key_eqb (entered (of_name k es)) d)).
Proof.
  intros W. induction d as [|[s v] d IH]; intros N es P; [congruence|]. cbn [map fst snd]. destruct d as [|x d].
  - exact (run_enter es k s v P W).
  - change (Enters k s v :: map (fun e => Enters k (fst e) (snd e)) (x :: d)) with ([Enters k s v] ++ map (fun e => Enters k (fst e) (snd e)) (x :: d)). rewrite app_assoc, IH; [|discriminate|apply proper_snoc; [exact P|exact W]].
    rewrite run_enter by assumption. rewrite (DictFacts.dset_twice key_eqb key_eqb_spec). rewrite own_snoc by reflexivity. now rewrite entered_snoc.
Qed.
Lemma run_has k es : Forall proper es -> way_of k = IsEntered ->
  dget key_eqb (run_of false es) (kstr k) = None /\ of_name k es = [] \/ dget key_eqb (run_of false es) (kstr k) = Some (VDict false (entered (of_name k es))).
Proof.
  intros P W. change (kstr k) with (SpecCastep.name k). rewrite run_get, named_in. destruct (of_name k es) as [|x l] eqn:O; [now left|right].
  rewrite entered_value by (try assumption; rewrite O; discriminate). now rewrite O.
Qed.

(** ** The end of the last run *)
Lemma run_of_same es : ~ In "energies"%string (map about es) -> run_of true es = run_of false es.
Proof.
  intros H. unfold run_of. apply map_ext_in. intros k I. apply first_seen_in in I; [|exact string_same].
  assert (k <> "energies"%string) by (intros ->; contradiction). unfold run_value. destruct (String.eqb_spec k "energies"); [contradiction|]. reflexivity.
Qed.
Lemma to_type_floats l : Forall (fun v => exists f, v = VFloat f) l -> mapM (to_type TFloat) l = Ok l.
Proof. induction 1 as [|v l (f & ->) _ IH]; [reflexivity|]. cbn [mapM to_type bind]. now rewrite IH. Qed.
Lemma run_closed es : Forall proper es ->
  fix_data_types (run_of false es) [(kstr "energies", TFloat); (kstr "solvation", TFloat)] = Ok (run_of true es).
Proof.
  intros P. unfold fix_data_types. cbn [foldM fst snd]. change (kstr "energies") with (SpecCastep.name "energies"). change (kstr "solvation") with (SpecCastep.name "solvation").
  assert (Hs : forall b, dget key_eqb (run_of b es) (SpecCastep.name "solvation") = None).
  { intros b. rewrite run_get. destruct (existsb _ _) eqn:E; [|reflexivity]. exfalso. apply existsb_exists in E as (k & I & E). apply String.eqb_eq in E. subst k.
    apply in_map_iff in I as (e & A & I). rewrite Forall_forall in P. specialize (P e I). destruct e as [k v|k v|k s v|k s v]; cbn in A, P; subst k; [now destruct P|discriminate|now destruct P|discriminate]. }
  rewrite run_get, named_in. destruct (of_name "energies" es) as [|x own] eqn:O.
  - cbn [bind]. rewrite Hs. cbn [bind]. rewrite run_of_same; [reflexivity|]. intros I. pose proof (named_in "energies" es) as N. rewrite O in N.
    apply not_true_iff_false in N. apply N, existsb_exists. exists "energies"%string. split; [exact I|reflexivity].
  - rewrite filed_value by (try assumption; try reflexivity; rewrite O; discriminate). cbn [andb negb]. rewrite O. set (all := x :: own).
    assert (Fl : forall e, In e all -> exists f, value e = VFloat f).
    { intros e I. unfold all in I. rewrite <- O in I. apply of_name_in in I as [I A]. rewrite Forall_forall in P. specialize (P e I).
      destruct e as [k v|k v|k s v|k s v]; cbn in A, P; subst k; [destruct P; discriminate|discriminate| |discriminate]. now apply P. }
    assert (T : to_type TFloat (VDict true (filed false all)) = Ok (VDict false (filed true all))).
    { cbn [to_type]. unfold filed. generalize (first_seen same_text (map second_name all)). intros ss.
      enough (M : mapM (fun kv => rmap (pair (fst kv)) (to_type TFloat (snd kv))) (map (fun s => (KStr s, VList (map value (of_second s all)))) ss) =
        Ok (map (fun s => (KStr s, VTuple (map value (of_second s all)))) ss)) by now rewrite M.
      induction ss as [|s ss IH]; [reflexivity|]. cbn [map mapM fst snd to_type]. rewrite to_type_floats.
      - cbn [rmap bind]. now rewrite IH.
      - apply Forall_forall. intros v I. apply in_map_iff in I as (e & <- & I). apply filter_In in I as [I _]. now apply Fl. }
    rewrite T. cbn [rmap bind].
    assert (R : dset key_eqb (run_of false es) (SpecCastep.name "energies") (VDict false (filed true all)) = run_of true es).
    { unfold run_of. assert (V : VDict false (filed true all) = run_value true "energies" es).
      { rewrite filed_value by (try assumption; try reflexivity; rewrite O; discriminate). cbn [andb negb String.eqb]. now rewrite O. }
      rewrite V. rewrite (grouped_set String.eqb SpecCastep.name string_same name_inj _ (fun k => run_value true k es) _ "energies"%string).
      - destruct (existsb _ _) eqn:E; [reflexivity|]. exfalso. apply not_true_iff_false in E. apply E. apply seen_in; [exact string_same|]. apply first_seen_in; [exact string_same|].
        pose proof (named_in "energies" es) as N. rewrite O in N. now apply seen_in in N; [|exact string_same].
      - apply first_seen_nodup, string_same.
      - intros k' H. unfold run_value. destruct (String.eqb_spec k' "energies"); [contradiction|]. now rewrite andb_false_r. }
    rewrite R, Hs. reflexivity.
Qed.
