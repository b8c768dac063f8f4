(** The operations that fill dictionaries of dictionaries build the [tree] of what is said. *)
From Coq Require Import List Arith Lia Bool.
From Verif Require Import PyBase PyVal SpecDict DictFacts TextParsersFacts DictUtil TextFiles Header CastepRest CastepRunFacts Castep5Facts SpecTree.
From Verif Require IntStr.
Import ListNotations.
Open Scope list_scope.

Lemma heads_app a b : heads (a ++ b) = heads a ++ heads b.
Proof. apply flat_map_app. Qed.
Lemma below_app k a b : below k (a ++ b) = below k a ++ below k b.
Proof. apply flat_map_app. Qed.
Lemma here_app a b : here (a ++ b) = here a ++ here b.
Proof. apply flat_map_app. Qed.
Lemma key_refl k : key_eqb k k = true.
Proof. now apply key_eqb_eq. Qed.

(** ** Setting the value at a path *)
Fixpoint set_at (e : exn) (p : list key) (v : pyval) (d : dict) : result dict :=
  match p with
  | [] => Ok d
  | [k] => Ok (dset key_eqb d k v)
  | k :: p => with_dict false e d k (set_at e p v)
  end.
Definition node (n : nat) (es : list said) : pyval :=
  match here es with
  | [] => match n with 0 => VNone | S m => VDict false (tree m es) end
  | v :: vs => last vs v
  end.
Lemma tree_nodes n es : tree n es = map (fun k => (k, node n (below k es))) (SpecEdges.first_seen key_eqb (heads es)).
Proof. destruct n; reflexivity. Qed.
Lemma tree_get n es k : dget key_eqb (tree n es) k = if existsb (key_eqb k) (heads es) then Some (node n (below k es)) else None.
Proof.
  rewrite tree_nodes. rewrite (grouped_get key_eqb (fun x => x) key_eqb_eq (fun a b E => E)).
  enough (E : existsb (key_eqb k) (SpecEdges.first_seen key_eqb (heads es)) = existsb (key_eqb k) (heads es)) by now rewrite E.
  apply eq_true_iff_eq. rewrite !(seen_in key_eqb key_eqb_eq). apply first_seen_in, key_eqb_eq.
Qed.
Lemma below_none k es : existsb (key_eqb k) (heads es) = false -> below k es = [].
Proof.
  induction es as [|[p v] es IH]; [reflexivity|]. change ((p, v) :: es) with ([(p, v)] ++ es). rewrite heads_app, below_app, existsb_app. intros H.
  apply orb_false_iff in H as [H1 H2]. rewrite (IH H2), app_nil_r. destruct p as [|k' p]; [reflexivity|]. cbn in *. rewrite orb_false_r in H1.
  destruct (key_eqb k' k) eqn:E; [|reflexivity]. apply key_eqb_eq in E. subst. now rewrite key_refl in H1.
Qed.
Lemma below_other k k' p v es : k' <> k -> below k' (es ++ [(k :: p, v)]) = below k' es.
Proof. intros H. rewrite below_app. cbn. destruct (key_eqb k k') eqn:E; [apply key_eqb_eq in E; congruence|]. now rewrite app_nil_r. Qed.
Lemma below_same k p v es : below k (es ++ [(k :: p, v)]) = below k es ++ [(p, v)].
Proof. rewrite below_app. cbn. now rewrite key_refl. Qed.
Lemma tree_snoc n es k p v : dset key_eqb (tree n es) k (node n (below k es ++ [(p, v)])) = tree n (es ++ [(k :: p, v)]).
Proof.
  rewrite !tree_nodes, heads_app. cbn [heads flat_map fst app]. rewrite first_seen_snoc.
  pose proof (grouped_set key_eqb (fun x => x) key_eqb_eq (fun a b E => E) (fun k => node n (below k es))
    (fun k' => node n (below k' (es ++ [(k :: p, v)]))) (SpecEdges.first_seen key_eqb (heads es)) k (first_seen_nodup key_eqb key_eqb_eq _)) as G.
  cbn beta in G. rewrite <- G; [now rewrite below_same|]. intros k' Hk. now rewrite below_other.
Qed.
(** Nothing so far has a value on the way to [p]. *)
Definition clear (es : list said) (p : list key) : Prop := forall p' v q, In (p', v) es -> p = p' ++ q -> q = [].
Lemma clear_below es k p : clear es (k :: p) -> clear (below k es) p.
Proof.
  intros H p' v q I E. apply in_flat_map in I as ([p0 v0] & I & J). cbn in J. destruct p0 as [|k0 p0]; [destruct J|].
  destruct (key_eqb k0 k) eqn:Q; [|destruct J]. apply key_eqb_eq in Q. subst k0. destruct J as [J|[]]. injection J as <- <-.
  apply (H _ _ q I). now rewrite E.
Qed.
Lemma clear_here es k p : clear es (k :: p) -> here es = [].
Proof.
  intros H. destruct (here es) as [|v l] eqn:E; [reflexivity|]. assert (I : In v (here es)) by (rewrite E; now left).
  apply in_flat_map in I as ([p0 v0] & I & J). cbn in J. destruct p0; [|destruct J]. specialize (H _ _ (k :: p) I eq_refl). discriminate.
Qed.
Theorem set_at_tree e p v : p <> [] -> forall n es, length p <= S n -> clear es p -> set_at e p v (tree n es) = Ok (tree n (es ++ [(p, v)])).
Proof.
  induction p as [|k p IH]; [congruence|]. intros _ n es L C. destruct p as [|k' p].
  - cbn [set_at]. rewrite <- tree_snoc. do 2 f_equal. unfold node. rewrite here_app. cbn [here flat_map fst snd app].
    destruct (here (below k es)) as [|w ws]; [reflexivity|]. cbn [app]. now rewrite last_last.
  - cbn [length] in L. destruct n as [|n]; [lia|]. change (set_at e (k :: k' :: p) v (tree (S n) es)) with (with_dict false e (tree (S n) es) k (set_at e (k' :: p) v)).
    unfold with_dict. rewrite tree_get. pose proof (clear_below _ _ _ C) as C'.
    assert (S1 : set_at e (k' :: p) v (tree n (below k es)) = Ok (tree n (below k es ++ [(k' :: p, v)]))) by (apply IH; [discriminate|cbn; lia|exact C']).
    assert (N : node (S n) (below k es ++ [(k' :: p, v)]) = VDict false (tree n (below k es ++ [(k' :: p, v)]))).
    { unfold node. rewrite here_app, (clear_here _ _ _ C'). reflexivity. }
    destruct (existsb (key_eqb k) (heads es)) eqn:E.
    + replace (node (S n) (below k es)) with (VDict false (tree n (below k es))) by (unfold node; now rewrite (clear_here _ _ _ C')).
      cbv beta iota. rewrite S1. cbn [bind]. now rewrite <- N, tree_snoc.
    + assert (T : tree n [] = []) by (destruct n; reflexivity). rewrite (below_none _ _ E) in S1, N. rewrite T in S1. cbn [app] in S1, N.
      rewrite S1. cbn [bind]. rewrite <- N, <- tree_snoc, (below_none _ _ E). reflexivity.
Qed.

(** ** Several values in turn *)
Definition set_all (e : exn) (ps : list said) (d : dict) : result dict := foldM (fun d x => set_at e (fst x) (snd x) d) ps d.
Lemma tree_all e n ps : forall es, shallow n ps -> orderly (es ++ ps) -> set_all e ps (tree n es) = Ok (tree n (es ++ ps)).
Proof.
  induction ps as [|[p v] ps IH]; intros es S O; [now rewrite app_nil_r|]. inversion_clear S as [|? ? [N L] S'].
  unfold set_all. cbn [foldM fst snd]. rewrite set_at_tree; [|exact N|exact L|].
  - cbn [bind]. change (set_all e ps (tree n (es ++ [(p, v)])) = Ok (tree n (es ++ (p, v) :: ps))). rewrite (IH (es ++ [(p, v)]) S'); rewrite <- app_assoc; [reflexivity|exact O].
  - intros p' w q I ->. apply in_split in I as (a & b & ->). apply (O a p' w b q v ps). now rewrite <- !app_assoc.
Qed.
Lemma orderly_less a b : orderly (a ++ b) -> orderly a.
Proof. intros H a' p v b' q w c ->. apply (H a' p v b' q w (c ++ b)). now rewrite <- !app_assoc, <- app_comm_cons, <- app_assoc, <- app_comm_cons. Qed.
(** ** Several values under one key *)
Definition under (k : key) (e : said) : said := (k :: fst e, snd e).
Lemma tree_under n k : forall ps es, ps <> [] -> Forall (fun e => fst e <> []) ps -> here (below k es) = [] ->
  dset key_eqb (tree (S n) es) k (VDict false (tree n (below k es ++ ps))) = tree (S n) (es ++ map (under k) ps).
Proof.
  intros ps. induction ps as [|[p v] ps IH] using rev_ind; [congruence|]. intros es _ F H. apply Forall_app in F as [F1 F2].
  inversion_clear F2 as [|? ? F2' _]. cbn [fst] in F2'. rewrite map_app. cbn [map under fst snd].  change (under k (p, v)) with (k :: p, v). rewrite !app_assoc.
  assert (N : forall l : list said, Forall (fun e => fst e <> []) l -> here l = []).
  { induction 1 as [|[q w] l Q _ IHl]; [reflexivity|]. cbn in Q |- *. destruct q; [congruence|exact IHl]. }
  destruct ps as [|x ps].
  - cbn [map]. rewrite !app_nil_r. change (under k (p, v)) with (k :: p, v). rewrite <- tree_snoc. f_equal. unfold node. rewrite here_app, H. cbn. destruct p; [congruence|reflexivity].
  - rewrite <- tree_snoc, <- (IH es); [|discriminate|exact F1|exact H]. rewrite (DictFacts.dset_twice key_eqb IntStr.key_eqb_spec). f_equal.
    assert (B : below k (es ++ map (under k) (x :: ps)) = below k es ++ (x :: ps)).
    { rewrite below_app. f_equal. generalize (x :: ps). intros l. induction l as [|[q w] l IHl]; [reflexivity|].
      cbn [map]. change (under k (q, w) :: map (under k) l) with ([(k :: q, w)] ++ map (under k) l). rewrite below_app, IHl. cbn. now rewrite key_refl. }
    rewrite B. unfold node. rewrite !here_app, H, (N _ F1). cbn. destruct p; [congruence|reflexivity].
Qed.
Lemma with_tree e n es k f ps : here (below k es) = [] -> ps <> [] -> Forall (fun e => fst e <> []) ps ->
  f (tree n (below k es)) = Ok (tree n (below k es ++ ps)) -> with_dict false e (tree (S n) es) k f = Ok (tree (S n) (es ++ map (under k) ps)).
Proof.
  intros H N F E. unfold with_dict. rewrite tree_get. destruct (existsb (key_eqb k) (heads es)) eqn:X.
  - replace (node (S n) (below k es)) with (VDict false (tree n (below k es))) by (unfold node; now rewrite H). cbv beta iota. rewrite E. cbn [bind]. now rewrite tree_under.
  - rewrite (below_none _ _ X) in E. replace (tree n []) with (@nil (key * pyval)) in E by (destruct n; reflexivity). rewrite E. cbn [bind].
    rewrite <- tree_under; [|exact N|exact F|exact H]. now rewrite (below_none _ _ X).
Qed.
Lemma set_tree n es k v : dset key_eqb (tree n es) k v = tree n (es ++ [([k], v)]).
Proof.
  rewrite <- tree_snoc. f_equal. unfold node. rewrite here_app. cbn [here flat_map fst snd app].
  destruct (here (below k es)) as [|w ws]; [reflexivity|]. cbn [app]. now rewrite last_last.
Qed.
Lemma update_tree n its : forall es, update (tree n es) its = tree n (es ++ map (fun kv => ([fst kv], snd kv)) its).
Proof.
  induction its as [|[k v] its IH]; intros es; [now rewrite app_nil_r|]. cbn [map fst snd]. change (update (tree n es) ((k, v) :: its)) with (update (dset key_eqb (tree n es) k v) its).
  rewrite set_tree, IH, <- app_assoc. reflexivity.
Qed.
Lemma no_value_here es ps k : orderly (es ++ ps) -> (exists p q v, p <> [] /\ In (k ++ p ++ q, v) ps) -> forall v, ~ In (k, v) es.
Proof.
  intros O (p & q & v & N & I) w J. apply in_split in I as (a & b & ->). apply in_split in J as (c & d & ->).
  assert (p ++ q = []) as Z by (apply (O c k w (d ++ a) (p ++ q) v b); now rewrite <- !app_assoc, <- app_comm_cons).
  apply app_eq_nil in Z as [Z _]. now apply N.
Qed.
Lemma here_below es k : (forall v, ~ In ([k], v) es) -> here (below k es) = [].
Proof.
  intros H. destruct (here (below k es)) as [|v l] eqn:E; [reflexivity|]. assert (I : In v (here (below k es))) by (rewrite E; now left).
  apply in_flat_map in I as ([p w] & I & J). cbn in J. destruct p; [|destruct J]. apply in_flat_map in I as ([p0 v0] & I & J2). cbn in J2. destruct p0 as [|k0 p0]; [destruct J2|].
  destruct (key_eqb k0 k) eqn:Q; [|destruct J2]. apply key_eqb_eq in Q. subst k0. destruct J2 as [J2|[]]. injection J2 as -> _. now apply H in I.
Qed.
Lemma in_below es k p v : In (p, v) (below k es) -> In (k :: p, v) es.
Proof.
  intros I. apply in_flat_map in I as ([p0 v0] & I & J2). cbn in J2. destruct p0 as [|k0 p0]; [destruct J2|].
  destruct (key_eqb k0 k) eqn:Q; [|destruct J2]. apply key_eqb_eq in Q. subst k0. destruct J2 as [J2|[]]. now injection J2 as <- <-.
Qed.
