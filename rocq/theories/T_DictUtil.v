(** Property theorems C26-C28, C30-C32: helpers on dictionaries and nested data. *)
From Coq Require Import Permutation.
From Verif Require Import PyBase PyVal NumSpec TypeConv Bytes SpecDict DictUtil DictFacts JsonFacts DictSmall MdFacts.
Local Open Scope list_scope.
Local Open Scope nat_scope.

(** [ext] stands for [str()] of floats and tuples, which never is empty. *)

(** C26.  With distinct flattened keys, [flatten_dict] has exactly one entry per
    leaf, under the flattened key of its path... *)
Theorem C26_flatten ext d its sep : (forall k, ext k <> []) -> well_keyed (VDict d its) ->
  (forall k v, In (k, v) its -> container v -> ~ falsy k) ->
  (forall p x p' x', at_path (VDict d its) p x -> at_path (VDict d its) p' x' ->
     path_key (key_str ext) sep p = path_key (key_str ext) sep p' -> p = p') ->
  NoDup (map fst (flatten_dict ext its sep)) /\
  forall k x, In (k, x) (flatten_dict ext its sep) <->
    exists p, at_path (VDict d its) p x /\ path_key (key_str ext) sep p = Some k.
Proof. exact (flatten_exact ext d its sep). Qed.
Print Assumptions C26_flatten.

(** ...and in general every entry is a leaf under its flattened key, and every
    flattened key of a leaf is present. *)
Theorem C26_flatten_sound ext d its sep k x : (forall k, ext k <> []) ->
  (forall k v, In (k, v) its -> container v -> ~ falsy k) ->
  In (k, x) (flatten_dict ext its sep) -> exists p, at_path (VDict d its) p x /\ path_key (key_str ext) sep p = Some k.
Proof. exact (flatten_sound ext d its sep k x). Qed.
Print Assumptions C26_flatten_sound.
Theorem C26_flatten_keys ext d its sep p x k : (forall k, ext k <> []) ->
  (forall k v, In (k, v) its -> container v -> ~ falsy k) ->
  at_path (VDict d its) p x -> path_key (key_str ext) sep p = Some k -> In k (map fst (flatten_dict ext its sep)).
Proof. exact (flatten_keys ext d its sep p x k). Qed.
Print Assumptions C26_flatten_keys.

(** Without distinctness a leaf is lost. *)
Theorem C26_distinct_needed_refuted : exists ext its p x k,
  at_path (VDict false its) p x /\ path_key (key_str ext) ($"_") p = Some k /\
  ~ In (k, x) (flatten_dict ext its ($"_")).
Proof.
  exists (fun _ => $"?"), [(KStr ($"a"), VDict false [(KStr ($"b"), VInt 1)]); (KStr ($"a_b"), VInt 2)],
    [Field (KStr ($"a")); Field (KStr ($"b"))], (VInt 1), (KStr ($"a_b")).
  split; [|split; [vm_compute; reflexivity|]].
  - econstructor; [left; reflexivity|]. econstructor; [left; reflexivity|]. constructor. now apply not_container.
  - vm_compute. intros [E|[]]. discriminate.
Qed.
(** Below a falsy key the prefix is dropped. *)
Theorem C26_falsy_parent ext k d its sep : falsy k -> flatten_dict ext [(k, VDict d its)] sep = flatten_dict ext its sep.
Proof. exact (flatten_falsy ext k d its sep). Qed.
Print Assumptions C26_falsy_parent.
Theorem C26_falsy_parent_refuted : exists ext its p x k,
  at_path (VDict false its) p x /\ path_key (key_str ext) ($"_") p = Some k /\
  ~ In k (map fst (flatten_dict ext its ($"_"))).
Proof.
  exists (fun _ => $"?"), [(KNone, VDict false [(KStr ($"b"), VInt 1)])],
    [Field KNone; Field (KStr ($"b"))], (VInt 1), (KStr ($"None_b")).
  split; [|split; [vm_compute; reflexivity|]].
  - econstructor; [left; reflexivity|]. econstructor; [left; reflexivity|]. constructor. now apply not_container.
  - vm_compute. intros [E|[]]. discriminate.
Qed.
(** The separator is not honoured below a sequence. *)
Theorem C26_separator_refuted : exists ext its,
  flatten_dict ext its ($".") = [(KStr ($"a_0_b"), VInt 1)] /\
  its = [(KStr ($"a"), VList [VDict false [(KStr ($"b"), VInt 1)]])].
Proof. exists (fun _ => $"?"). eexists. split; [|reflexivity]. vm_compute. reflexivity. Qed.

Definition ex_flat : dict :=
  [(KStr ($"hello"), VList [VStr ($"is"); VStr ($"me")]);
   (KStr ($"goodbye"), VDict false [(KStr ($"nest"), VStr ($"birds")); (KTuple [KInt 1], VInt 2)])].
Example C26_ex :
  flatten_dict (fun _ => $"(1,)") ex_flat ($"_") =
    [(KStr ($"hello_0"), VStr ($"is")); (KStr ($"hello_1"), VStr ($"me"));
     (KStr ($"goodbye_nest"), VStr ($"birds")); (KStr ($"goodbye_(1,)"), VInt 2)] /\
  well_keyed (VDict false ex_flat) /\
  (forall k v, In (k, v) ex_flat -> container v -> ~ falsy k) /\
  (forall p x p' x', at_path (VDict false ex_flat) p x -> at_path (VDict false ex_flat) p' x' ->
     path_key (key_str (fun _ => $"(1,)")) ($"_") p = path_key (key_str (fun _ => $"(1,)")) ($"_") p' -> p = p').
Proof.
  split; [vm_compute; reflexivity|]. split; [|split].
  - apply wk_dict.
    + repeat constructor; cbn; intuition discriminate.
    + intros k v [E|[E|[]]]; injection E as <- <-.
      * apply wk_list. intros v [<-|[<-|[]]]; constructor; now apply not_container.
      * apply wk_dict; [repeat constructor; cbn; intuition discriminate|].
        intros k v [E|[E|[]]]; injection E as <- <-; constructor; now apply not_container.
  - intros k v [E|[E|[]]] _ F; injection E as <- <-;
      destruct F as [F|[F|[F|[F|[F|(f & F & _)]]]]]; discriminate.
  - assert (P : forall p x, at_path (VDict false ex_flat) p x ->
        In p [[Field (KStr ($"hello")); Index 0]; [Field (KStr ($"hello")); Index 1];
              [Field (KStr ($"goodbye")); Field (KStr ($"nest"))]; [Field (KStr ($"goodbye")); Field (KTuple [KInt 1])]]).
    { intros p x H. inversion H as [? Hc|? ? ? ? ? ? Hin H1| |]; subst; [exfalso; apply Hc; right; right; eauto|].
      destruct Hin as [E|[E|[]]]; injection E as <- <-.
      - inversion H1 as [? Hc| |? n ? ? ? Hn H2|]; subst; [exfalso; apply Hc; right; left; eauto|].
        destruct n as [|[|n]]; cbn in Hn; [| |destruct n; discriminate];
          injection Hn as <-; inversion H2; subst; cbn; auto.
      - inversion H1 as [? Hc|? ? ? ? ? ? Hin H2| |]; subst; [exfalso; apply Hc; right; right; eauto|].
        destruct Hin as [E|[E|[]]]; injection E as <- <-; inversion H2; subst; cbn; auto. }
    intros p x p' x' H H' E. apply P in H, H'. cbn [In] in H, H'.
    destruct H as [<-|[<-|[<-|[<-|[]]]]]; destruct H' as [<-|[<-|[<-|[<-|[]]]]]; try reflexivity;
      vm_compute in E; discriminate.
Qed.

(** C27.  Parsed data becomes JSON-ready data: the same tree with sequences as
    tuples, complex numbers as pairs and tuple keys as joined text. *)
Theorem C27_json_ready ext v : jsonable v ->
  exists v', normalise (json_mapping ext) v = Ok v' /\ json_image (key_str ext) v v' /\ json_ready v'.
Proof. exact (normalise_json ext v). Qed.
Print Assumptions C27_json_ready.

(** The empty tuple is not convertible. *)
Theorem C27_empty_key_refuted : exists ext v, normalise (json_mapping ext) v = Err IndexError.
Proof. exists (fun _ => []), (VDict false [(KTuple [], VNone)]). vm_compute. reflexivity. Qed.

Definition ex_json : pyval :=
  VDict true [(KStr ($"bonds"), VList [VDict false [(bond_key (($"Ar", 1%Z), ($"Sr", 2%Z)), VComplex (FQ 1) (FQ 2))]])].
Example C27_ex : jsonable ex_json /\ normalise (json_mapping (fun _ => [])) ex_json =
  Ok (VDict false [(KStr ($"bonds"), VTuple [VDict false [(KStr ($"Ar_1_Sr_2"),
        VDict false [(KStr ($"real"), VFloat (FQ 1)); (KStr ($"imag"), VFloat (FQ 2))])]])]).
Proof.
  split; [|vm_compute; reflexivity].
  apply ja_dict. intros k v [E|[]]. injection E as <- <-. split; [apply kk_scalar; discriminate|].
  apply ja_list. intros v [<-|[]]. apply ja_dict. intros k v [E|[]]. injection E as <- <-.
  split; [apply bond_key_known|apply ja_complex].
Qed.

(** C28.  Per-atom tables keep one entry per atom, in order... *)
Theorem C28_atoms ext d (rows : list ((str * Z) * pyval)) :
  NoDup (map fst rows) -> Forall (fun r => jsonable (snd r)) rows ->
  exists rows', normalise (json_mapping ext) (VDict d (map (fun r => (atom_key (fst r), snd r)) rows)) =
      Ok (VDict false (map (fun r => (KStr (atom_text (fst r)), snd r)) rows')) /\
      Forall2 (fun r r' => fst r' = fst r /\ json_image (key_str ext) (snd r) (snd r')) rows rows'.
Proof. exact (json_atoms ext d rows). Qed.
Print Assumptions C28_atoms.

(** ...and no two atoms share a JSON key. *)
Theorem C28_atom_text_distinct a a' : atom_text a = atom_text a' -> a = a'.
Proof. exact (atom_text_inj a a'). Qed.

(** Per-bond tables do when the first species has no underscore... *)
Theorem C28_bonds ext d (rows : list (((str * Z) * (str * Z)) * pyval)) :
  NoDup (map fst rows) -> Forall (fun r => jsonable (snd r)) rows ->
  (forall r, In r rows -> ~ In "_"%char (fst (fst (fst r)))) ->
  exists rows', normalise (json_mapping ext) (VDict d (map (fun r => (bond_key (fst r), snd r)) rows)) =
      Ok (VDict false (map (fun r => (KStr (atom_text (fst (fst r)) ++ "_"%char :: atom_text (snd (fst r))), snd r)) rows')) /\
      Forall2 (fun r r' => fst r' = fst r /\ json_image (key_str ext) (snd r) (snd r')) rows rows'.
Proof. exact (json_bonds ext d rows). Qed.
Print Assumptions C28_bonds.

(** ...but not in general. *)
Theorem C28_bonds_refuted : exists ext b1 b2 v1 v2 v, b1 <> b2 /\
  normalise (json_mapping ext) (VDict false [(bond_key b1, v1); (bond_key b2, v2)]) = Ok (VDict false [v]).
Proof.
  exists (fun _ => []), (($"A", 1%Z), ($"2_B", 3%Z)), (($"A_1", 2%Z), ($"B", 3%Z)), (VInt 1), (VInt 2),
    (KStr ($"A_1_2_B_3"), VInt 2).
  split; [intros E; discriminate|vm_compute; reflexivity].
Qed.
Example C28_ex : NoDup [(($"H", 1%Z), ($"H", 2%Z)); (($"H", 1%Z), ($"H_a", 2%Z))] /\
  ~ In "_"%char ($"H").
Proof. split; [repeat constructor; cbn; intuition discriminate|cbn; intuition discriminate]. Qed.

(** C30.  [d'] is the argument after the call, [out] the returned dictionary. *)
Theorem C30_add_aliases {V} (d : list (key * V)) al rp ip :
  NoDup (map fst d) -> NoDup (map fst al) -> NoDup (map snd al) ->
  (forall k, In k (map fst al) -> ~ In k (map snd al)) ->
  exists d' out, add_aliases key_eqb d al rp ip = Ok (d', out) /\ NoDup (map fst out) /\
    d' = (if ip then out else d) /\
    (forall f t v, In (f, t) al -> entry d f v -> entry out t v) /\
    (forall f, In f (map fst al) -> if rp then absent out f else forall v, entry out f v <-> entry d f v) /\
    (forall k, ~ In k (map fst al) -> (forall f, In (f, k) al -> absent d f) -> forall v, entry out k v <-> entry d k v).
Proof. exact (add_aliases_spec d al rp ip). Qed.
Print Assumptions C30_add_aliases.

(** With chained aliases working in place or on a copy differ. *)
Theorem C30_chained_refuted : exists d al out out',
  rmap snd (add_aliases key_eqb d al false true) = Ok out /\
  rmap snd (add_aliases key_eqb d al false false) = Ok out' /\ out <> (out' : list (key * nat)).
Proof.
  exists [(KStr ($"a"), 1)], [(KStr ($"a"), KStr ($"b")); (KStr ($"b"), KStr ($"c"))].
  do 2 eexists. split; [vm_compute; reflexivity|]. split; [vm_compute; reflexivity|]. discriminate.
Qed.
(** A self-alias with [replace] drops the key. *)
Theorem C30_self_refuted : exists d al, rmap snd (add_aliases key_eqb d al true true) = Ok ([] : list (key * nat)) /\ d <> [].
Proof. exists [(KStr ($"a"), 1)], [(KStr ($"a"), KStr ($"a"))]. split; [vm_compute; reflexivity|discriminate]. Qed.
Example C30_ex : add_aliases key_eqb [(KStr ($"hi"), 1); (KStr ($"bye"), 2)] [(KStr ($"hi"), KStr ($"frog")); (KStr ($"x"), KStr ($"y"))] true false =
  Ok ([(KStr ($"hi"), 1); (KStr ($"bye"), 2)], [(KStr ($"bye"), 2); (KStr ($"frog"), 1)]).
Proof. vm_compute. reflexivity. Qed.

(** C31.  Stacking rows into an empty defaultdict(list). *)
Theorem C31_stack {V} (rows : list (list (key * V))) :
  Forall (fun r => NoDup (map fst r)) rows ->
  exists out, foldM (stack_dict true) rows [] = Ok out /\ NoDup (map fst out) /\
  forall k vs, column k rows vs -> (vs = [] -> absent out k) /\ (vs <> [] -> entry out k vs).
Proof. exact (stack_columns rows). Qed.
Print Assumptions C31_stack.
(** Into a plain dictionary: the same when it has all the keys, otherwise a KeyError. *)
Theorem C31_plain {V} (out : list (key * list V)) row : NoDup (map fst out) -> NoDup (map fst row) ->
  ((forall k, In k (map fst row) -> In k (map fst out)) -> stack_dict false out row = stack_dict true out row) /\
  (forall k, In k (map fst row) -> absent out k -> stack_dict false out row = Err KeyError).
Proof. exact (stack_plain out row). Qed.
Print Assumptions C31_plain.
Example C31_plain_ex : stack_dict false [(KInt 1, [5])] [(KInt 1, 6)] = Ok [(KInt 1, [5; 6])] /\
  stack_dict false [(KInt 1, [5])] [(KInt 1, 6); (KInt 2, 7)] = Err KeyError.
Proof. vm_compute. auto. Qed.
(** Every key has exactly one column. *)
Theorem C31_column_unique {V} k (rows : list (list (key * V))) :
  Forall (fun r => NoDup (map fst r)) rows -> exists vs, column k rows vs /\ forall vs', column k rows vs' -> vs' = vs.
Proof. exact (column_total k rows). Qed.
Example C31_ex : foldM (stack_dict true) [[(KStr ($"a"), 1); (KStr ($"b"), 2)]; [(KStr ($"b"), 3)]] [] =
  Ok [(KStr ($"a"), [1]); (KStr ($"b"), [2; 3])].
Proof. vm_compute. reflexivity. Qed.

(** C32.  [iter]: how sets happen to iterate. *)
Theorem C32_strip_nones iter data include exclude :
  (forall l, Permutation (iter l) l) -> NoDup (map fst data) ->
  exists p, strip_nones iter data include exclude = Ok (filter p data) /\
  forall k v, In (k, v) data ->
    (p (k, v) = false <-> v = VNone /\ ~ In k exclude /\ match include with None => True | Some inc => In k inc end).
Proof. exact (strip_nones_spec iter data include exclude). Qed.
Print Assumptions C32_strip_nones.
Example C32_ex : strip_nones (@rev key) [(KStr ($"a"), VInt 1); (KStr ($"b"), VNone); (KStr ($"c"), VNone)] None [KStr ($"c")]
  = Ok [(KStr ($"a"), VInt 1); (KStr ($"c"), VNone)] /\ forall l : list key, Permutation (rev l) l.
Proof. split; [vm_compute; reflexivity|]. intros l. symmetry. apply Permutation_rev. Qed.

Theorem C32_filter_underscore {V} (d : list (str * V)) :
  exists p, filter_underscore d = filter p d /\ forall k v, p (k, v) = false <-> exists t, k = "_"%char :: t.
Proof. exact (filter_underscore_spec d). Qed.
Print Assumptions C32_filter_underscore.

Theorem C32_fix_data_types types d d' : NoDup (map fst types) -> NoDup (map fst d) -> fix_data_types d types = Ok d' ->
  map fst d' = map fst d /\
  forall k v, entry d k v ->
    (forall t, In (k, t) types -> exists v', to_type t v = Ok v' /\ entry d' k v') /\
    (~ In k (map fst types) -> entry d' k v).
Proof. exact (fix_ok types d d'). Qed.
Print Assumptions C32_fix_data_types.
Theorem C32_fix_data_types_error types d e : NoDup (map fst types) -> NoDup (map fst d) -> fix_data_types d types = Err e ->
  exists k t v, In (k, t) types /\ entry d k v /\ to_type t v = Err e.
Proof. exact (fix_err types d e). Qed.
Print Assumptions C32_fix_data_types_error.

Theorem C32_get_only {A} (l : list A) :
  (forall x, get_only l = Ok x <-> l = [x]) /\ ((forall x, l <> [x]) -> get_only l = Err ValueError).
Proof. exact (get_only_spec l). Qed.
Print Assumptions C32_get_only.

(** The index of an atom, and what is left of the dictionary it was taken from. *)
Theorem C32_atreg_to_index d sp ds clear : NoDup (map fst d) -> In ($"spec", sp) d -> In ($"index", write_digits ds) d -> ds <> [] ->
  exists p, atreg_to_index d clear = Ok ((sp, decimal ds), filter p d) /\
  forall k v, In (k, v) d -> (p (k, v) = false <-> clear = true /\ (k = $"spec" \/ k = $"index")).
Proof. exact (atreg_to_index_spec d sp ds clear). Qed.
Print Assumptions C32_atreg_to_index.
Example C32_atreg_ex : atreg_to_index [($"x", $"1.0"); ($"spec", $"Ar"); ($"index", $"12")] true = Ok (($"Ar", 12%Z), [($"x", $"1.0")]) /\
  $"12" = write_digits [d1; d2].
Proof. vm_compute. auto. Qed.
