(** Paths and file systems. *)
From Coq Require Import Lia.
From Verif Require Import PyBase PyFacts SpecStr StrUtilFacts StreamFacts PathLib SpecCli.
Local Open Scope list_scope.
Local Open Scope nat_scope.

Lemma kept_iff {A} (P : A -> Prop) f l : (forall x, P x <-> f x = true) -> forall l', kept P l l' <-> l' = filter f l.
Proof.
  intros H. induction l as [|x l IH]; intros l'; cbn [filter].
  - split; [now inversion 1|intros ->; constructor].
  - destruct (f x) eqn:E; split.
    + inversion 1; subst; [f_equal; now apply IH|]. exfalso. apply H in E. contradiction.
    + intros ->. constructor; [now apply H|now apply IH].
    + inversion 1; subst; [|now apply IH]. exfalso. match goal with K : P x |- _ => apply H in K end. congruence.
    + intros ->. constructor; [rewrite H; congruence|now apply IH].
Qed.
Lemma kept_fun {A} (P : A -> Prop) l : forall a b, kept P l a -> kept P l b -> a = b.
Proof. induction l as [|x l IH]; intros a b H1 H2; inversion H1; inversion H2; subst; auto; try contradiction. f_equal; auto. Qed.
Lemma kept_in_iff {A} (P : A -> Prop) l l' : kept P l l' -> forall x, In x l' <-> In x l /\ P x.
Proof.
  induction 1 as [|y l l' HP _ IH|y l l' HP _ IH]; intros x; cbn; [tauto| |]; rewrite IH; split.
  - intros [->|[? ?]]; auto.
  - intros [[->|?] ?]; auto.
  - intros [? ?]; auto.
  - intros [[->|?] ?]; [contradiction|auto].
Qed.

(** ** Splitting at slashes *)
Lemma slash_eqb c : Ascii.eqb c "/" = true <-> c = slash.
Proof. apply Ascii.eqb_eq. Qed.
Lemma split_slash_ne s : split_slash s <> [].
Proof. destruct s as [|c s]; cbn; [discriminate|]. destruct (Ascii.eqb c "/"); [discriminate|]. destruct (split_slash s); discriminate. Qed.
Lemma split_slash_join s : s = joined [slash] (split_slash s).
Proof.
  induction s as [|c s IH]; [reflexivity|]. cbn [split_slash]. destruct (Ascii.eqb c "/") eqn:E.
  - apply slash_eqb in E as ->. cbn [joined]. destruct (split_slash s) eqn:E2; [now apply split_slash_ne in E2|].
    cbn [app]. now rewrite IH at 1.
  - destruct (split_slash s) as [|w ws] eqn:E2; [now apply split_slash_ne in E2|].
    rewrite IH at 1. cbn [joined]. destruct ws; reflexivity.
Qed.
Lemma split_slash_pieces s : Forall (fun w => ~ In slash w) (split_slash s).
Proof.
  induction s as [|c s IH]; cbn [split_slash]; [now repeat constructor|].
  destruct (Ascii.eqb c "/") eqn:E; [constructor; [easy|exact IH]|].
  destruct (split_slash s) as [|w ws]; [repeat constructor; intros [->|[]]; discriminate|].
  inversion IH; subst. constructor; [|assumption]. intros [->|]; [discriminate|contradiction].
Qed.
Lemma split_slash_piece w : ~ In slash w -> split_slash w = [w].
Proof.
  induction w as [|c w IH]; intros H; [reflexivity|]. cbn [split_slash]. rewrite IH by (intros K; apply H; now right).
  destruct (Ascii.eqb c "/") eqn:E; [apply slash_eqb in E as ->; exfalso; apply H; now left|reflexivity].
Qed.
Lemma split_slash_app w s : ~ In slash w -> split_slash (w ++ slash :: s) = w :: split_slash s.
Proof.
  induction w as [|c w IH]; intros H; [reflexivity|]. cbn [app split_slash]. rewrite IH by (intros K; apply H; now right).
  destruct (Ascii.eqb c "/") eqn:E; [apply slash_eqb in E as ->; exfalso; apply H; now left|reflexivity].
Qed.
Lemma split_slash_joined ws : ws <> [] -> Forall (fun w => ~ In slash w) ws -> split_slash (joined [slash] ws) = ws.
Proof.
  intros H F. induction F as [|w ws Hw F IH]; [congruence|]. cbn [joined]. destruct ws as [|w' ws].
  - now apply split_slash_piece.
  - cbn [app]. rewrite split_slash_app by exact Hw. f_equal. apply IH. discriminate.
Qed.

Definition meaningfulb (w : str) : bool := negb (isempty w) && negb (str_eqb w ($".")).
Lemma meaningful_iff w : (w <> [] /\ w <> [dot]) <-> meaningfulb w = true.
Proof.
  unfold meaningfulb. rewrite andb_true_iff, !negb_true_iff, str_eqb_neq.
  change ($".") with [dot]. destruct w; cbn; split; intros [H1 H2]; split; congruence.
Qed.
Lemma rooted_path s : rooted s (pt_root (path_of s)).
Proof.
  unfold path_of, rooted, starts_with_slash. cbn [pt_root].
  destruct (startswith ($"/") s) eqn:E1.
  - apply startswith_iff in E1 as [t E1]. change (s = slash :: t) in E1. subst s. right.
    destruct (startswith ($"//") (slash :: t)) eqn:E2.
    + apply startswith_iff in E2 as [t' E2]. change (slash :: t = slash :: slash :: t') in E2. injection E2 as ->.
      destruct (startswith ($"///") (slash :: slash :: t')) eqn:E3; cbn [negb andb].
      * apply startswith_iff in E3 as [t2 E3]. change (slash :: slash :: t' = slash :: slash :: slash :: t2) in E3. injection E3 as ->.
        left. split; [reflexivity|]. eexists. split; [reflexivity|]. right. eexists. split; [reflexivity|]. now eexists.
      * right. split; [reflexivity|]. exists t'. split; [reflexivity|]. intros [t2 ->].
        assert (startswith ($"///") (slash :: slash :: slash :: t2) = true) by (apply startswith_iff; now exists t2). congruence.
    + cbn [andb]. left. split; [reflexivity|]. exists t. split; [reflexivity|]. left. intros [t' ->].
      assert (startswith ($"//") (slash :: slash :: t') = true) by (apply startswith_iff; now exists t'). congruence.
  - left. split; [reflexivity|]. intros [t ->].
    assert (startswith ($"/") (slash :: t) = true) by (apply startswith_iff; now exists t). congruence.
Qed.
Lemma rooted_fun s r r' : rooted s r -> rooted s r' -> r = r'.
Proof.
  unfold rooted, starts_with_slash. intros [[-> H]|[[-> (t & -> & H)]|[-> (t & -> & H)]]] [[-> H']|[[-> (t' & E & H')]|[-> (t' & E & H')]]];
    try reflexivity; try (exfalso; apply H; eauto; fail); try (exfalso; apply H'; eauto; fail); injection E as E; subst.
  - destruct H as [H|(x & E & y & ->)]; exfalso; [apply H; eauto|]. injection E as E; subst. apply H'; eauto.
  - destruct H' as [H'|(x & E & y & ->)]; exfalso; [apply H'; eauto|]. injection E as E; subst. apply H; eauto.
Qed.
Theorem denotes_iff s root comps : denotes s root comps <-> path_of s = {| pt_root := root; pt_parts := comps |}.
Proof.
  split.
  - intros [Hr (ws & Hn & Hs & -> & Hk)]. pose proof (rooted_path (joined [slash] ws)) as Hp.
    assert (E : pt_parts (path_of (joined [slash] ws)) = comps).
    { cbn [path_of pt_parts]. rewrite split_slash_joined by assumption. symmetry.
      apply (proj1 (kept_iff _ _ _ meaningful_iff comps) Hk). }
    destruct (path_of (joined [slash] ws)) as [r' p']. cbn in *. now rewrite E, (rooted_fun _ _ _ Hr Hp).
  - intros E. split.
    + pose proof (rooted_path s) as Hp. rewrite E in Hp. exact Hp.
    + exists (split_slash s). split; [apply split_slash_ne|]. split; [apply split_slash_pieces|]. split; [apply split_slash_join|].
      apply (kept_iff _ _ _ meaningful_iff). unfold path_of in E. injection E as _ <-. reflexivity.
Qed.
Lemma denotes_total s : denotes s (pt_root (path_of s)) (pt_parts (path_of s)).
Proof. apply denotes_iff. now destruct (path_of s). Qed.
Lemma path_str_place p : path_str p = place (pt_root p) (pt_parts p).
Proof. unfold path_str, place. destruct (pt_root p), (pt_parts p); rewrite ?join_joined; reflexivity. Qed.

(** ** Names *)
Lemma last_dot_some s a b : last_dot s = Some (a, b) <-> s = a ++ dot :: b /\ ~ In dot b.
Proof.
  revert a b. induction s as [|c s IH]; intros a b; cbn [last_dot].
  - split; [discriminate|]. intros [H _]. now destruct a.
  - destruct (last_dot s) as [[a' b']|] eqn:E.
    + destruct (proj1 (IH a' b') eq_refl) as [-> Hb']. split.
      * intros H. injection H as <- <-. auto.
      * intros [H Hb]. destruct a as [|x a].
        -- injection H as -> H. exfalso. apply Hb. rewrite <- H. apply in_elt.
        -- injection H as -> H. assert (H2 : Some (a', b') = Some (a, b)) by (apply IH; auto). injection H2 as -> ->. reflexivity.
    + destruct (Ascii.eqb c ".") eqn:Ec.
      * apply Ascii.eqb_eq in Ec as ->. split.
        -- intros H. injection H as <- <-. split; [reflexivity|]. intros Hin. apply in_split in Hin as (l1 & l2 & Hin).
           (* the last dot of s *)
           clear - E Hin. revert l1 l2 Hin. induction s as [|x s IHs]; intros l1 l2 Hin; [now destruct l1|].
           cbn [last_dot] in E. destruct (last_dot s) as [[]|] eqn:E2; [discriminate|].
           destruct (Ascii.eqb x ".") eqn:Ex; [discriminate|]. destruct l1 as [|y l1]; injection Hin as -> Hin; [discriminate|].
           eapply IHs; eauto.
        -- intros [H Hb]. destruct a as [|x a]; injection H as H; [now subst|].
           subst. exfalso. assert (K : None = Some (a, b)) by (apply IH; auto). discriminate.
      * split; [discriminate|]. intros [H Hb]. destruct a as [|x a].
        -- injection H as -> H. discriminate.
        -- injection H as -> H. assert (K : None = Some (a, b)) by (apply IH; auto). discriminate.
Qed.
Lemma last_dot_none s : last_dot s = None <-> ~ In dot s.
Proof.
  split.
  - intros E Hin. assert (exists a b, s = a ++ dot :: b /\ ~ In dot b) as (a & b & H).
    { clear E. induction s as [|c s IH]; [contradiction|].
      destruct (in_dec Ascii.ascii_dec dot s) as [Hs|Hs].
      - destruct (IH Hs) as (a & b & -> & Hb). exists (c :: a), b. auto.
      - destruct Hin as [->|]; [|contradiction]. exists [], s. auto. }
    apply last_dot_some in H. congruence.
  - intros H. destruct (last_dot s) as [[a b]|] eqn:E; [|reflexivity]. apply last_dot_some in E as [-> _].
    exfalso. apply H, in_elt.
Qed.
Definition with_dot (e : str) : str := match e with [] => [] | _ => dot :: e end.
Theorem file_type_iff name base e : file_type name base e <-> stem_suffix name = (base, with_dot e).
Proof.
  unfold stem_suffix. split.
  - intros [(-> & Hb & He & Hd)|(-> & -> & H)].
    + assert (E : last_dot (base ++ dot :: e) = Some (base, e)) by now apply last_dot_some. rewrite E.
      destruct base, e; try congruence; reflexivity.
    + destruct (last_dot name) as [[a b]|] eqn:E; [|reflexivity].
      apply last_dot_some in E as [E Hb]. destruct (H a b E Hb) as [->| ->]; [reflexivity|].
      now rewrite orb_true_r.
  - destruct (last_dot name) as [[a b]|] eqn:E.
    + apply last_dot_some in E as [E Hb]. destruct (isempty a || isempty b) eqn:Ee.
      * intros H. injection H as <- H. right. split; [now destruct e|]. split; [reflexivity|].
        intros a' b' E' Hb'. assert (K : last_dot name = Some (a, b)) by now apply last_dot_some.
        assert (K' : last_dot name = Some (a', b')) by now apply last_dot_some. rewrite K in K'. injection K' as <- <-.
        destruct a; [now left|]. destruct b; [now right|discriminate].
      * intros H. injection H as <- H. left. destruct e as [|x e]; [discriminate|]. injection H as H. subst b.
        apply orb_false_iff in Ee as [Ea _]. repeat split; try assumption; [now destruct a|discriminate].
    + intros H. injection H as <- H. right. split; [now destruct e|]. split; [reflexivity|].
      intros a b E' Hb. exfalso. apply last_dot_none in E. apply E. rewrite E'. apply in_elt.
Qed.
Lemma file_type_total name : exists base e, file_type name base e.
Proof.
  destruct (stem_suffix name) as [a s] eqn:E. assert (exists e, s = with_dot e) as [e ->].
  { unfold stem_suffix in E. destruct (last_dot name) as [[x y]|]; [|injection E as _ <-; now exists []].
    destruct (isempty x || isempty y) eqn:E2; injection E as _ <-; [now exists []|]. exists y.
    apply orb_false_iff in E2 as [_ E2]. now destruct y. }
  exists a, e. now apply file_type_iff.
Qed.
Lemma file_type_fun name b e b' e' : file_type name b e -> file_type name b' e' -> b = b' /\ e = e'.
Proof.
  rewrite !file_type_iff. intros -> H. injection H as <- H. split; [reflexivity|]. destruct e, e'; try discriminate; [reflexivity|]. injection H as -> ->. reflexivity.
Qed.
Lemma file_type_no_slash name b e : ~ In slash name -> file_type name b e -> ~ In slash b.
Proof. intros H [(-> & _)|(-> & -> & _)]; [|exact H]. intros K. apply H, in_or_app. now left. Qed.
Lemma file_type_ne name b e : name <> [] -> file_type name b e -> b <> [].
Proof. intros H [(-> & Hb & _)|(_ & -> & _)]; assumption. Qed.

(** ** Spelling *)
Definition component (w : str) : Prop := w <> [] /\ w <> [dot] /\ ~ In slash w.
Lemma denotes_component s root comps : denotes s root comps -> Forall component comps.
Proof.
  intros [_ (ws & _ & Hs & _ & Hk)]. apply Forall_forall. intros w Hw.
  apply (kept_in_iff _ _ _ Hk) in Hw as [Hin [H1 H2]]. rewrite Forall_forall in Hs. split; auto.
Qed.
Lemma filter_all_true {A} (f : A -> bool) l : Forall (fun x => f x = true) l -> filter f l = l.
Proof. induction 1 as [|x l Hx _ IH]; cbn; [reflexivity|]. now rewrite Hx, IH. Qed.
Definition root_ok (r : str) : Prop := r = [] \/ r = [slash] \/ r = [slash; slash].
Lemma denotes_root s root comps : denotes s root comps -> root_ok root.
Proof. intros [[[-> _]|[[-> _]|[-> _]]] _]; unfold root_ok; auto. Qed.
Lemma joined_hd comps : Forall component comps -> ~ starts_with_slash (joined [slash] comps).
Proof.
  intros H [t E]. destruct H as [|w ws [H1 [_ H2]] _]; [discriminate|]. cbn [joined] in E.
  destruct w as [|c w]; [congruence|]. assert (c = slash) by (destruct ws; cbn in E; congruence). subst. apply H2. now left.
Qed.
Lemma path_of_place root comps : root_ok root -> Forall component comps -> comps <> [] ->
  path_of (place root comps) = {| pt_root := root; pt_parts := comps |}.
Proof.
  intros Hr Hc Hn. assert (Hp : place root comps = root ++ joined [slash] comps) by (destruct root, comps; try congruence; reflexivity).
  assert (Hf : filter meaningfulb comps = comps).
  { apply filter_all_true. eapply Forall_impl; [|exact Hc]. intros w (H1 & H2 & _). now apply meaningful_iff. }
  assert (Hs : Forall (fun w => ~ In slash w) comps) by (eapply Forall_impl; [|exact Hc]; now intros w (_ & _ & H)).
  pose proof (joined_hd comps Hc) as Hh.
  apply denotes_iff. rewrite Hp. split.
  - destruct Hr as [->|[->| ->]]; cbn [app]; unfold rooted; [left|right; left|right; right]; split; auto; eexists; split; [reflexivity|auto|reflexivity|auto].
  - destruct Hr as [->|[->| ->]]; cbn [app].
    + exists comps. repeat split; auto. apply (kept_iff _ _ _ meaningful_iff). now rewrite Hf.
    + exists ([] :: comps). split; [discriminate|]. split; [constructor; [easy|exact Hs]|]. split.
      { cbn [joined]. destruct comps; [congruence|reflexivity]. }
      apply (kept_iff _ _ _ meaningful_iff). cbn. now rewrite <- Hf at 1.
    + exists ([] :: [] :: comps). split; [discriminate|]. split; [constructor; [easy|constructor; [easy|exact Hs]]|]. split.
      { cbn [joined]. destruct comps; [congruence|reflexivity]. }
      apply (kept_iff _ _ _ meaningful_iff). cbn. now rewrite <- Hf at 1.
Qed.
Lemma place_inj r c r' c' : root_ok r -> root_ok r' -> Forall component c -> Forall component c' -> c <> [] -> c' <> [] ->
  place r c = place r' c' -> r = r' /\ c = c'.
Proof.
  intros H1 H2 H3 H4 H5 H6 E. apply (f_equal path_of) in E. rewrite !path_of_place in E by assumption. injection E; auto.
Qed.
Lemma place_app root dirs name suf : place root (dirs ++ [name]) ++ suf = place root (dirs ++ [name ++ suf]).
Proof.
  assert (H : forall n, place root (dirs ++ [n]) = root ++ joined [slash] (dirs ++ [n])).
  { intros n. unfold place. destruct root; [|reflexivity]. destruct (dirs ++ [n]) eqn:E; [now destruct dirs|reflexivity]. }
  rewrite !H, <- app_assoc. clear H. f_equal. induction dirs as [|d dirs IH]; [reflexivity|].
  cbn [app]. destruct (dirs ++ [name]) as [|x l] eqn:E1; [now destruct dirs|].
  destruct (dirs ++ [name ++ suf]) as [|y l'] eqn:E2; [now destruct dirs|].
  rewrite !joined_cons2, <- !app_assoc. now rewrite IH.
Qed.

(** ** Wildcards *)
Lemma wild_star p s : wild ("*"%char :: p) s = true <-> exists a b, s = a ++ b /\ wild p b = true.
Proof.
  cbn [wild]. change (Ascii.eqb "*" "*") with true. cbv iota.
  induction s as [|c s IH].
  - rewrite orb_false_r. split; [intros H; exists [], []; auto|]. intros (a & b & E & H). destruct a, b; try discriminate. exact H.
  - rewrite orb_true_iff, IH. split.
    + intros [H|(a & b & -> & H)]; [exists [], (c :: s); auto|exists (c :: a), b; auto].
    + intros ([|x a] & b & E & H); [cbn in E; subst b; now left|]. injection E as -> ->. right. eauto.
Qed.
Lemma wild_plain n : ~ In "*"%char n -> forall p s, wild (n ++ p) s = true <-> exists b, s = n ++ b /\ wild p b = true.
Proof.
  induction n as [|c n IH]; intros Hn p s; cbn [app].
  - split; [intros H; now exists s|]. now intros (b & -> & H).
  - cbn [wild]. destruct (Ascii.eqb c "*") eqn:E; [apply Ascii.eqb_eq in E as ->; exfalso; apply Hn; now left|].
    destruct s as [|d s]; [split; [discriminate|]; intros (b & H & _); discriminate|].
    rewrite andb_true_iff, Ascii.eqb_eq, IH by (intros K; apply Hn; now right). split.
    + intros [-> (b & -> & H)]. exists b. auto.
    + intros (b & H & Hb). injection H as -> ->. split; [reflexivity|]. eauto.
Qed.
Lemma wild_exact n s : ~ In "*"%char n -> (wild n s = true <-> s = n).
Proof.
  intros Hn. rewrite <- (app_nil_r n) at 1. rewrite (wild_plain n Hn). cbn [wild]. split.
  - intros (b & -> & H). destruct b; [now rewrite app_nil_r|discriminate].
  - intros ->. exists []. now rewrite app_nil_r.
Qed.
Lemma wild_err name s : ~ In "*"%char name ->
  (wild (name ++ $".*.err") s = true <-> exists x, s = name ++ dot :: x ++ $".err").
Proof.
  intros Hn. rewrite (wild_plain name Hn). split.
  - intros (b & -> & H). cbn [list_ascii_of_string] in H. change (wild ([dot] ++ "*"%char :: $".err") b = true) in H.
    rewrite wild_plain in H by (intros [K|[]]; discriminate). destruct H as (b' & -> & H).
    apply wild_star in H as (x & y & -> & H). apply wild_exact in H; [|intros [|[|[|[|[]]]]]; discriminate]. subst. now exists x.
  - intros (x & ->). exists (dot :: x ++ $".err"). split; [reflexivity|].
    change (wild ([dot] ++ "*"%char :: $".err") ([dot] ++ x ++ $".err") = true).
    rewrite wild_plain by (intros [K|[]]; discriminate). eexists. split; [reflexivity|]. apply wild_star.
    exists x, ($".err"). split; [reflexivity|]. apply wild_exact; [intros [|[|[|[|[]]]]]; discriminate|reflexivity].
Qed.
Lemma wilds_exact ds ws p : Forall (fun d => ~ In "*"%char d) ds ->
  (wilds (ds ++ [p]) (ws) = true <-> exists x, ws = ds ++ [x] /\ wild p x = true).
Proof.
  intros H. revert ws. induction H as [|d ds Hd H IH]; intros ws; cbn [app].
  - destruct ws as [|x [|y ws]]; cbn.
    + split; [discriminate|]. intros (x & E & _). discriminate.
    + rewrite andb_true_r. split; [intros K; now exists x|]. intros (y & E & K). now injection E as ->.
    + rewrite andb_false_r. split; [discriminate|]. intros (z & E & _). discriminate.
  - destruct ws as [|x ws]; cbn; [split; [discriminate|]; intros (y & E & _); discriminate|].
    rewrite andb_true_iff, wild_exact, IH by assumption. split.
    + intros [-> (y & -> & K)]. exists y. auto.
    + intros (y & E & K). injection E as -> ->. split; [reflexivity|]. eauto.
Qed.
Lemma strip_parts_iff d l r : strip_parts d l = Some r <-> l = d ++ r.
Proof.
  revert l. induction d as [|x d IH]; intros l; cbn [strip_parts app].
  - split; congruence.
  - destruct l as [|y l]; [split; discriminate|]. destruct (str_eqb_spec x y) as [->|N].
    + rewrite IH. split; [now intros ->|]. intros E. now injection E.
    + split; [discriminate|]. intros E. injection E as -> _. congruence.
Qed.
Lemma is_file_iff fs p : is_file fs p = true <-> In (path_str p, true) fs.
Proof.
  unfold is_file. rewrite existsb_exists. split.
  - intros ([e b] & Hin & H). cbn in H. apply andb_true_iff in H as [-> H]. apply str_eqb_eq in H as ->. exact Hin.
  - intros H. exists (path_str p, true). split; [exact H|]. cbn. apply str_eqb_refl.
Qed.

(** The files found for a seed's crash reports. *)
Theorem glob_err fs dirs name : normal_fs fs -> Forall component (dirs ++ [name]) ->
  Forall (fun w => ~ In "*"%char w) (dirs ++ [name]) ->
  exists l, glob fs {| pt_root := []; pt_parts := dirs |} (place [] (dirs ++ [name]) ++ $".*.err") = Ok l /\
    kept (fun f => exists x, f = place [] (dirs ++ dirs ++ [name ++ dot :: x ++ $".err"]) /\ ~ In slash x) (map fst fs) l.
Proof.
  intros Hfs Hc Hw. unfold glob. rewrite place_app.
  assert (Hc' : Forall component (dirs ++ [name ++ $".*.err"])).
  { apply Forall_app in Hc as [Hd Hn]. apply Forall_app. split; [exact Hd|]. inversion Hn as [|? ? (H1 & H2 & H3) _]; subst.
    repeat constructor.
    - now destruct name.
    - intros E. apply (f_equal (@length _)) in E. rewrite app_length in E. cbn in E. lia.
    - rewrite in_app_iff. cbn. intros [K|K]; [contradiction|]. repeat (destruct K as [K|K]; [discriminate|]). exact K. }
  rewrite path_of_place; [|now left|exact Hc'|now destruct dirs]. cbn [pt_root isempty negb pt_parts].
  eexists. split; [reflexivity|].
  assert (Hent : forall f, In f (map fst fs) -> exists root comps, denotes f root comps /\ f = place root comps).
  { intros f Hf. apply in_map_iff in Hf as ([e b] & <- & Hin). now apply (Hfs e b). }
  apply Forall_app in Hw as [Hwd Hwn]. inversion Hwn as [|? ? Hwn' _]; subst.
  induction (map fst fs) as [|f l IH]; [constructor|]. cbn [filter].
  assert (IH' := IH (fun g Hg => Hent g (or_intror Hg))). destruct (Hent f (or_introl eq_refl)) as (root & comps & Hden & Hpl). clear IH.
  destruct (str_eqb (pt_root (path_of f)) [] && _) eqn:E.
  - constructor; [|exact IH']. apply andb_true_iff in E as [E1 E2]. apply str_eqb_eq in E1.
    destruct (strip_parts dirs (pt_parts (path_of f))) as [rest|] eqn:E3; [|discriminate].
    apply strip_parts_iff in E3. apply (proj1 (wilds_exact dirs rest _ Hwd)) in E2 as (x & -> & E2).
    apply (proj1 (wild_err name x Hwn')) in E2 as (y & ->).
    assert (Hp := proj1 (denotes_iff f root comps) Hden). rewrite Hp in E1, E3. cbn in E1, E3. subst root comps.
    exists y. split; [exact Hpl|]. apply denotes_component in Hden. rewrite !Forall_app in Hden. destruct Hden as (_ & _ & Hl).
    inversion Hl as [|? ? (_ & _ & K) _]; subst. intros Hy. apply K, in_or_app. right. right. apply in_or_app. now left.
  - constructor; [|exact IH']. intros (x & Hf & Hx).
    assert (Hcc : Forall component (dirs ++ dirs ++ [name ++ dot :: x ++ $".err"])).
    { apply Forall_app in Hc as [Hd Hn]. inversion Hn as [|? ? (H1 & H2 & H3) _]; subst.
      rewrite !Forall_app. repeat split; auto. repeat constructor.
      - now destruct name.
      - intros K. apply (f_equal (@length _)) in K. rewrite app_length in K. cbn in K. rewrite app_length in K. cbn in K. lia.
      - rewrite in_app_iff. cbn. rewrite in_app_iff. cbn. intros [K|[K|[K|K]]]; try contradiction; try discriminate.
        repeat (destruct K as [K|K]; [discriminate|]). exact K. }
    rewrite Hf, path_of_place in E; [|now left|exact Hcc|now destruct dirs]. cbn [pt_root pt_parts str_eqb] in E.
    assert (E3 : strip_parts dirs (dirs ++ dirs ++ [name ++ dot :: x ++ $".err"]) = Some (dirs ++ [name ++ dot :: x ++ $".err"]))
      by now apply strip_parts_iff.
    rewrite E3 in E. cbn in E. assert (K : wilds (dirs ++ [name ++ $".*.err"]) (dirs ++ [name ++ dot :: x ++ $".err"]) = true).
    { apply (wilds_exact dirs _ _ Hwd). eexists. split; [reflexivity|]. apply wild_err; eauto. }
    cbn in K. congruence.
Qed.
