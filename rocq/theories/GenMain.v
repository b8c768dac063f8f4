(** The predicted files are those of the rules. *)
From Coq Require Import Lia Sorted.
From Verif Require Import PyBase PyFacts PyVal SpecStr StrUtilFacts IntStr
  DictUtil SpecDict DictFacts DictSmall PathLib SpecCli PathFacts GenFiles SpecGen GenFacts.
Local Open Scope list_scope.
Local Open Scope nat_scope.

Ltac bok H := repeat match type of H with
  | bind ?x _ = Ok _ => let E := fresh "E" in destruct x eqn:E; cbn [bind] in H; [|discriminate H]
  | rmap _ ?x = Ok _ => let E := fresh "E" in destruct x eqn:E; cbn [rmap] in H; [|discriminate H]
  end.
Lemma ok_pair {A B} (a c : A) (b d : B) : Ok (a, b) = Ok (c, d) -> a = c /\ b = d.
Proof. intros H. injection H as -> ->. auto. Qed.
Lemma ok_inj {A} (a c : A) : Ok a = Ok c -> a = c.
Proof. intros H. injection H as ->. auto. Qed.
Lemma in_when x b l : In x (when b l) <-> b = true /\ In x l.
Proof. destruct b; cbn; intuition discriminate. Qed.
Lemma in_one {A} (x y : A) : In x [y] <-> x = y.
Proof. cbn. intuition. Qed.
Lemma in_two {A} (x y z : A) : In x [y; z] <-> x = y \/ x = z.
Proof. cbn. intuition. Qed.

Definition six : list string := ["write_bib"; "write_checkpoint"; "write_cst_esp"; "write_bands"; "write_geom"; "write_md"]%string.
Definition after (p : dict) : dict := if pon p "write_none" then silence p else p.
Lemma text_inj (a b : string) : $a = $b -> a = b.
Proof. intros E. rewrite <- (string_of_list_ascii_of_string a), <- (string_of_list_ascii_of_string b). now f_equal. Qed.
Lemma pget_dset p k v k' d : pget (dset key_eqb p (KStr ($k)) v) k' d = if String.eqb k k' then v else pget p k' d.
Proof.
  unfold pget. rewrite (dget_dset _ key_eqb_spec). destruct (key_eqb_spec (KStr ($k)) (KStr ($k'))) as [E|N].
  - injection E as E. apply text_inj in E as ->. now rewrite String.eqb_refl.
  - destruct (String.eqb_spec k k') as [->|_]; [congruence|reflexivity].
Qed.
Lemma after_pget p k d : pget (after p) k d = if pon p "write_none" && existsb (String.eqb k) six then VBool false else pget p k d.
Proof.
  unfold after. destruct (pon p "write_none"); [|reflexivity]. unfold silence. cbn [fold_left]. rewrite !pget_dset.
  unfold six. cbn [existsb andb]. rewrite !(String.eqb_sym k).
  repeat match goal with |- context [String.eqb ?a k] => destruct (String.eqb a k); cbn [orb]; try reflexivity end.
Qed.
Lemma after_keep p k d : existsb (String.eqb k) six = false -> pget (after p) k d = pget p k d.
Proof. intros E. now rewrite after_pget, E, andb_false_r. Qed.
Lemma after_on p k : existsb (String.eqb k) six = false -> pon (after p) k = pon p k.
Proof. intros E. unfold pon. now rewrite after_keep. Qed.
Lemma after_written p k : NoDup (map fst p) -> existsb (String.eqb k) six = true ->
  (truth (pget (after p) k (VBool true)) = true <-> written p k).
Proof.
  intros Hp E. rewrite after_pget, E, andb_true_r. unfold written. rewrite <- (pon_iff _ Hp), <- (pdef_iff _ Hp).
  destruct (pon p "write_none"); cbn; intuition congruence.
Qed.

(** ** Species in order *)
Lemma dedup_snoc l : forall seen x, dedup seen (l ++ [x]) =
  dedup seen l ++ (if existsb (key_eqb x) seen || existsb (key_eqb x) (dedup seen l) then [] else [x]).
Proof.
  induction l as [|y l IH]; intros seen x; cbn [app dedup].
  - cbn [existsb]. rewrite orb_false_r. now destruct (existsb (key_eqb x) seen).
  - destruct (existsb (key_eqb y) seen); [apply IH|]. rewrite IH. cbn [app existsb]. f_equal. f_equal.
    now destruct (key_eqb x y), (existsb (key_eqb x) seen).
Qed.
Lemma existsb_key x l : existsb (key_eqb x) l = true <-> In x l.
Proof.
  rewrite existsb_exists. split.
  - intros (y & H & E). destruct (key_eqb_spec x y) as [->|]; [exact H|discriminate].
  - intros H. exists x. split; [exact H|]. now destruct (key_eqb_spec x x).
Qed.
Lemma dedup_firsts l : firsts l (dedup [] l).
Proof.
  induction l as [|x l IH] using rev_ind; [constructor|]. rewrite dedup_snoc. cbn [existsb orb].
  destruct (existsb (key_eqb x) (dedup [] l)) eqn:E.
  - rewrite app_nil_r. apply fs_old; [exact IH|]. now apply existsb_key.
  - apply fs_new; [exact IH|]. intros H. apply existsb_key in H. congruence.
Qed.
Lemma firsts_fun {A} (l o1 o2 : list A) : firsts l o1 -> firsts l o2 -> o1 = o2.
Proof.
  intros H. revert o2. induction H as [|l o x H IH N|l o x H IH N]; intros o2 H2.
  - inversion H2 as [|l' o' x' _ _ E|l' o' x' _ _ E]; [reflexivity| |]; destruct l'; discriminate.
  - inversion H2 as [E|l' o' x' H' N' E|l' o' x' H' N' E]; subst; [destruct l; discriminate| |]; apply app_inj_tail in E as [-> ->].
    + now rewrite (IH _ H').
    + apply IH in H'. subst. contradiction.
  - inversion H2 as [E|l' o' x' H' N' E|l' o' x' H' N' E]; subst; [destruct l; discriminate| |]; apply app_inj_tail in E as [-> ->].
    + apply IH in H'. subst. contradiction.
    + now apply IH.
Qed.
Lemma pairs_in {A} (l : list A) x y : In (x, y) (pairs l) <-> exists be af, l = be ++ x :: af /\ In y (x :: af).
Proof.
  induction l as [|z l IH]; cbn [pairs].
  - split; [intros []|]. intros ([|] & af & E & _); discriminate.
  - rewrite in_app_iff, in_map_iff, IH. split.
    + intros [(y' & E & H)|(be & af & -> & H)].
      * injection E as <- <-. now exists [], l.
      * now exists (z :: be), af.
    + intros ([|b be] & af & E & H); injection E as -> ->; [left; now exists y|right; eauto].
Qed.
Lemma species_iff k s : species_of k = Ok s <-> species_of_site k s.
Proof.
  unfold species_of, species_of_site. split.
  - destruct k as [| | | |t|l]; try discriminate.
    + destruct t as [|c [|d [|]]]; try discriminate. intros H. injection H as <-. right. now exists c, d.
    + destruct l as [|a [|b [|]]]; try discriminate. intros H. injection H as <-. left. now exists b.
  - intros [(i & ->)|(c & d & -> & ->)]; reflexivity.
Qed.
Lemma mapM_Forall2 {A B} (f : A -> result B) (R : A -> B -> Prop) : (forall x y, f x = Ok y <-> R x y) ->
  forall l ys, Forall2 R l ys <-> mapM f l = Ok ys.
Proof.
  intros Hf. induction l as [|x l IH]; intros ys; cbn [mapM].
  - split; [inversion 1; reflexivity|]. intros H. injection H as <-. constructor.
  - split.
    + inversion 1 as [|? y ? ys' H1 H2]; subst. apply Hf in H1. apply IH in H2. fold (mapM f l). rewrite H1, H2. reflexivity.
    + fold (mapM f l). destruct (f x) as [y|] eqn:E; [|discriminate]. cbn [bind]. destruct (mapM f l) as [ys'|] eqn:E'; [|discriminate]. cbn [bind].
      intros H. injection H as <-. constructor; [now apply Hf|now apply IH].
Qed.

(** ** Tables of words *)
Lemma NoDup_map_text {A} (l : list (string * A)) : NoDup (map fst l) -> forall {B} (f : A -> B), NoDup (map fst (map (fun x => ($(fst x), f (snd x))) l)).
Proof.
  intros H B f. rewrite map_map. cbn. induction l as [|[k v] l IH]; cbn in *; [constructor|]. inversion H as [|? ? N H']; subst. constructor; [|auto].
  intros K. apply N. apply in_map_iff in K as ((k' & v') & E & K). cbn in E. apply text_inj in E. subst. apply in_map_iff. exists (k, v'). auto.
Qed.
Lemma dget_text {A} (l : list (str * A)) k v : NoDup (map fst l) -> (dget str_eqb l k = Some v <-> In (k, v) l).
Proof.
  induction l as [|[k' v'] l IH]; cbn [dget In map fst]; intros H; [split; [discriminate|intros []]|]. inversion H as [|? ? N H']; subst.
  destruct (str_eqb k' k) eqn:E.
  - apply str_eqb_eq in E. subst k'. split; [intros K; injection K as ->; now left|]. intros [K|K]; [congruence|]. exfalso. apply N. apply in_map_iff. exists (k, v). auto.
  - rewrite (IH H'). split; [now right|]. intros [K|K]; [|exact K]. injection K as -> ->. rewrite str_eqb_refl in E. discriminate.
Qed.
Definition theory_name (t : SpectralTheory) : string := match t with TDDFT => "TDDFT" | DFT => "DFT" end.
Definition spectral_name (t : SpectralTask) : string :=
  match t with CORELOSS => "CORELOSS" | BANDSTRUCTURE => "BANDSTRUCTURE" | OPTICS => "OPTICS" | DOS => "DOS" | ALL => "ALL" end.
Lemma choice_iff {E} (ms : list (string * E)) v c : NoDup (map fst ms) -> (forall c c' e, In (c, e) ms -> In (c', e) ms -> c = c') ->
  (choice (map fst ms) v c <-> exists e, enum_call (map (fun x => ($(fst x), snd x)) ms) v = Ok e /\ In (c, e) ms).
Proof.
  intros Nd Inj. pose proof (NoDup_map_text ms Nd (fun x => x)) as Nd'.
  assert (Num : forall z c, (exists i, z = Z.of_nat (S i) /\ nth_error (map fst ms) i = Some c) <->
    exists e, (match (if (1 <=? z)%Z then nth_error (map (fun x => ($(fst x), snd x)) ms) (Z.to_nat (z - 1)) else None) with
                  | Some m => Ok (snd m) | None => Err ValueError end) = Ok e /\ In (c, e) ms).
  { intros z c0. split.
    - intros (i & -> & H). destruct (Z.leb_spec 1 (Z.of_nat (S i))); [|lia]. replace (Z.to_nat (Z.of_nat (S i) - 1)) with i by lia.
      rewrite nth_error_map in *. destruct (nth_error ms i) as [[c1 e]|] eqn:E1; [|discriminate]. injection H as ->. cbn. exists e. split; [reflexivity|]. now apply nth_error_In in E1.
    - destruct (Z.leb_spec 1 z); [|intros (e & K & _); discriminate]. rewrite nth_error_map. destruct (nth_error ms (Z.to_nat (z - 1))) as [[c1 e1]|] eqn:E1; [|intros (e & K & _); discriminate].
      cbn. intros (e & K & Hi). injection K as ->. exists (Z.to_nat (z - 1)). split; [lia|]. rewrite nth_error_map, E1. cbn.
      f_equal. apply nth_error_In in E1. eapply Inj; eassumption. }
  unfold choice. destruct v as [|b|z|[q|q]|x y|s|s|l|l|b l]; cbn [enum_call].
  1,5,6,8,9,10,11: split; [intros [(t & K & _)|(i & [(z0 & K & _)|[(b0 & K & _)|K]] & _)]; discriminate|intros (e & K & _); discriminate].
  - rewrite <- Num. split.
    + intros [(t & K & _)|(i & [(z0 & K & _)|[(b0 & K & E1)|K]] & H)]; try discriminate. injection K as <-. exists i. split; [|exact H].
      destruct b; unfold inject_Z in E1; injection E1 as E1; lia.
    + intros (i & E1 & H). right. exists i. split; [|exact H]. right. left. exists b. split; [reflexivity|]. rewrite <- E1. now destruct b.
  - rewrite <- Num. split.
    + intros [(t & K & _)|(i & [(z0 & K & E1)|[(b0 & K & E1)|K]] & H)]; try discriminate. injection K as <-. exists i. split; [|exact H].
      unfold inject_Z in E1. injection E1 as E1. lia.
    + intros (i & -> & H). right. exists i. split; [|exact H]. left. eauto.
  - destruct (Pos.eqb_spec (Qden q) 1) as [Ed|Nd1].
    + rewrite <- Num. split.
      * intros [(t & K & _)|(i & [(z0 & K & E1)|[(b0 & K & E1)|K]] & H)]; try discriminate. injection K as ->. exists i. auto.
      * intros (i & E1 & H). right. exists i. split; [|exact H]. right. right. do 2 f_equal. destruct q as [n d]. cbn in *. now subst.
    + split; [|intros (e & K & _); discriminate].
      intros [(t & K & _)|(i & [(z0 & K & E1)|[(b0 & K & E1)|K]] & H)]; try discriminate. injection K as ->. exfalso. now apply Nd1.
  - split.
    + intros [(t & K & Hw & Hi)|(i & [(z0 & K & _)|[(b0 & K & _)|K]] & _)]; try discriminate. injection K as <-. apply same_word_iff in Hw.
      apply in_map_iff in Hi as ((c1 & e) & E1 & Hi). cbn in E1. subst c1. exists e. split; [|exact Hi].
      assert (D : dget str_eqb (map (fun x => ($(fst x), snd x)) ms) (squash s) = Some e).
      { apply (dget_text _ _ _ Nd'). rewrite Hw. apply in_map_iff. exists (c, e). auto. }
      now rewrite D.
    + intros (e & K & Hi). left. exists s. split; [reflexivity|]. destruct (dget _ _ _) as [e1|] eqn:D; [|discriminate]. injection K as ->.
      apply (dget_text _ _ _ Nd') in D. apply in_map_iff in D as ((c1 & e1) & E1 & Hi1). cbn in E1. injection E1 as E1 ->.
      split; [|apply in_map_iff; exists (c, e); auto]. apply same_word_iff. rewrite <- E1. f_equal. eapply Inj; eassumption.
Qed.

(** ** Farm numbers *)
Lemma farm_iff i t : three_digits i t <-> t = farm_no i.
Proof.
  unfold three_digits, farm_no. set (s := str_of_Z (Z.of_nat i)). split.
  - intros (z & -> & Hz & Hl). f_equal. rewrite app_length in Hl.
    assert (L : length z = 3 - length s) by (destruct Hl as [Hl|[-> Hl]]; cbn [length plus] in Hl |- *; lia). rewrite <- L. clear -Hz.
    induction Hz as [|c z <- Hz IH]; cbn; [reflexivity|]. now f_equal.
  - intros ->. exists (repeat "0"%char (3 - length s)). split; [reflexivity|]. split.
    + apply Forall_forall. intros c Hc. apply repeat_spec in Hc. auto.
    + rewrite app_length, repeat_length. destruct (Nat.le_gt_cases (length s) 3); [left; lia|right]. split; [|lia]. assert (E0 : 3 - length s = 0) by lia. now rewrite E0.
Qed.
Lemma and_assoc_l (A B C : Prop) : (A /\ B /\ C) <-> ((A /\ B) /\ C).
Proof. tauto. Qed.

Section Main.
  Context (first : list str -> str) (ext : key -> str).
  Context (p cell devel : dict) (seed : str).
  Context (Wp : well_keyed (VDict false p)) (Wc : well_keyed (VDict false cell)).
  Context (Hdev : as_dict (pget p "devel_code" (VDict false [])) = Ok devel).
  Let Hp : NoDup (map fst p) := proj1 (keyed_dict _ _ Wp).
  Let Hc : NoDup (map fst cell) := proj1 (keyed_dict _ _ Wc).
  Let Gdev : group p "devel_code" devel := proj1 (group_iff _ Hp _ _) Hdev.
  Let Wd : well_keyed (VDict false devel) := keyed_group _ _ _ _ Wp Gdev.
  Let Hd : NoDup (map fst devel) := proj1 (keyed_dict _ _ Wd).
  Context (t : str) (Ht : as_str (pget p "task" (VStr ($"SINGLEPOINT"))) = Ok t).
  Context (T : Task) (HT : enum_call task_members (VStr (upper t)) = Ok T).
  Context (xc : list str) (Hxc : get_xc_info p = Ok xc).
  Let Fxc : forall r, In r xc <-> functional p r := xc_iff p xc Wp Hxc.

  Lemma dev_unique d : group p "devel_code" d -> d = devel.
  Proof. intros H. apply (group_iff _ Hp) in H. congruence. Qed.
  Lemma T_iff k : task p k <-> task_name T = k.
  Proof. exact (task_iff p T t Hp Ht HT k). Qed.
  Lemma is_task U : task_eqb T U = true <-> task p (task_name U).
  Proof. rewrite T_iff. destruct T, U; cbn; split; congruence. Qed.
  Lemma word_iff w : str_eqb (upper t) ($w) = true <-> task_word p w.
  Proof. rewrite (task_word_iff p t w Hp Ht). apply str_eqb_eq. Qed.

  (** *** Checkpoint *)
  Lemma check_iff check : check_files (pget (after p) "write_checkpoint" (VStr ($"ALL"))) seed = Ok check ->
    forall f, In f check <-> (check_word p ["TRUE"; "ALL"; "BOTH"; "FULL"]%string /\ f = seed ++ $".check") \/
      (check_word p ["TRUE"; "ALL"; "BOTH"; "FULL"; "MINIMAL"]%string /\ f = seed ++ $".castep_bin").
  Proof.
    rewrite after_pget. cbn [existsb six String.eqb]. rewrite andb_true_r. unfold check_word.
    destruct (pon p "write_none") eqn:En.
    { apply (pon_iff _ Hp) in En. cbn. intros H. injection H as <-. intros f. cbn. intuition. }
    apply (pon_off _ Hp) in En.
    set (v := pget p "write_checkpoint" (VStr ($"ALL"))).
    assert (Ev : forall w, setting p "write_checkpoint" (VStr ($"ALL")) w <-> v = w) by (intros w; apply (setting_iff _ Hp)).
    unfold check_files. set (word := match v with VStr s => upper s | VBool true => $"TRUE" | VBool false => $"FALSE" | VNone => $"NONE" | _ => [] end).
    assert (Hw : forall l, ~ In "FALSE"%string l -> ~ In "NONE"%string l -> ~ In ""%string l ->
      (text_in word l = true <-> (~ on p "write_none" /\ exists v, setting p "write_checkpoint" (VStr ($"ALL")) v /\
         ((exists t w, v = VStr t /\ upper t = $w /\ In w l) \/ (v = VBool true /\ In "TRUE"%string l))))).
    { intros l N1 N2 N3. rewrite text_in_iff. split.
      - intros (x & Hx & E). split; [exact En|]. exists v. split; [now apply Ev|]. unfold word in E. destruct v as [|[]| | | | s | | | | ]; try discriminate;
          try (apply (text_inj _ _) in E; subst; contradiction);
          try (exfalso; apply N3; assert (x = ""%string) as <- by (apply text_inj; auto); exact Hx).
        + right. split; [reflexivity|]. apply text_inj in E. now subst.
        + left. exists s, x. auto.
      - intros (_ & v' & Hv & H). apply Ev in Hv. subst v'. destruct H as [(s & w & E & E' & Hl)|(E & Hl)]; unfold word; rewrite E.
        + exists w. auto.
        + exists "TRUE"%string. auto. }
    assert (H4 := Hw ["TRUE"; "ALL"; "BOTH"; "FULL"]%string). assert (H5 := Hw ["TRUE"; "ALL"; "BOTH"; "FULL"; "MINIMAL"]%string).
    assert (E45 : text_in word ["TRUE"; "ALL"; "BOTH"; "FULL"; "MINIMAL"]%string = text_in word ["TRUE"; "ALL"; "BOTH"; "FULL"]%string || str_eqb word ($"MINIMAL")).
    { unfold text_in. cbn [existsb]. now rewrite orb_false_r, !orb_assoc, orb_false_r. }
    rewrite E45 in H5. specialize (H4 ltac:(cbn; intuition discriminate) ltac:(cbn; intuition discriminate) ltac:(cbn; intuition discriminate)).
    specialize (H5 ltac:(cbn; intuition discriminate) ltac:(cbn; intuition discriminate) ltac:(cbn; intuition discriminate)).
    unfold check_word in *.
    destruct (text_in word ["TRUE"; "ALL"; "BOTH"; "FULL"]%string); cbn [orb] in H5.
    - intros H. injection H as <-. intros f. rewrite in_two. rewrite <- H4, <- H5. intuition.
    - destruct (str_eqb word ($"MINIMAL")).
      + intros H. injection H as <-. intros f. rewrite in_one. rewrite <- H4, <- H5. intuition discriminate.
      + destruct (text_in word ["FALSE"; "NONE"]%string); [|discriminate]. intros H. injection H as <-. intros f. rewrite <- H4, <- H5. cbn. intuition discriminate.
  Qed.


  (** *** Pair potentials *)
  Lemma pp_iff pp : pp_files ext devel cell seed = Ok pp -> forall f, In f pp <->
    (post_processing devel /\ (exists g, group devel "pp" g /\ on g "pot_print") /\ cell = [] /\ f = seed ++ $"_*_.pot") \/
    (post_processing devel /\ (exists g, group devel "pp" g /\ on g "fd_check") /\ f = seed ++ $".fd") \/
    (exists g pos ss species before x after y, post_processing devel /\
       group devel "pp" g /\ on g "pot_print" /\ cell <> [] /\ group cell "positions_frac" pos /\
       Forall2 species_of_site (map fst pos) ss /\ firsts ss species /\
       species = before ++ x :: after /\ In y (x :: after) /\
       f = seed ++ $"_" ++ key_str ext x ++ $"_" ++ key_str ext y ++ $".pot").
  Proof.
    unfold pp_files, post_processing. setoid_rewrite <- (pon_iff _ Hd "_pp").
    assert (Hg : forall g, group devel "pp" g -> truth (pget devel "pp" VNone) = true \/ g = []).
    { intros g (b & Hb). destruct Hb as [Hb|[_ E]].
      - apply (entry_dget _ _ _ Hd) in Hb. unfold pget. rewrite Hb. destruct g; cbn; auto.
      - injection E as _ ->. auto. }
    assert (Hnil : forall k, ~ on [] k).
    { intros k (v & [[]|[_ ->]] & N). apply N. now left. }
    destruct (pon devel "_pp"); cbn [andb].
    2:{ intros H. injection H as <-. intros f. split; [intros []|]. intros [H|[H|H]]; [destruct H; discriminate|destruct H; discriminate|].
        destruct H as (g & pos & ss & sp & be & x & af & y & E & _). discriminate. }
    destruct (truth (pget devel "pp" VNone)) eqn:Et.
    2:{ intros H. injection H as <-. intros f. split; [intros []|].
        assert (K : forall g k, group devel "pp" g -> ~ on g k) by (intros g k G; destruct (Hg g G) as [| ->]; [discriminate|apply Hnil]).
        intros [(_ & (g & G & O) & _)|[(_ & (g & G & O) & _)|(g & pos & ss & sp & be & x & af & y & _ & G & O & _)]]; now apply (K g) in O. }
    destruct (as_dict (pget devel "pp" VNone)) as [g|] eqn:Eg; [|discriminate]. cbn [bind].
    pose proof (group_none _ Hd _ _ Eg) as Gg. pose proof (keyed_group _ _ _ _ Wd Gg) as Wg.
    pose proof (proj1 (keyed_dict _ _ Wg)) as Hgd.
    assert (Ug : forall g', group devel "pp" g' -> g' = g).
    { intros g' (b & G'). destruct G' as [G'|[G' _]].
      - apply (entry_dget _ _ _ Hd) in G'. unfold pget in Eg. rewrite G' in Eg. cbn in Eg. congruence.
      - exfalso. apply absent_dget in G'. unfold pget in Et. rewrite G' in Et. discriminate. }
    assert (Ho : forall k, (exists g', group devel "pp" g' /\ on g' k) <-> pon g k = true).
    { intros k. rewrite (pon_iff _ Hgd). split; [intros (g' & G & O); now rewrite <- (Ug g' G)|intros O; now exists g]. }
    intros H. bok H. injection H as <-. intros f. rewrite in_app_iff, in_when, in_one, !Ho.
    destruct (pon g "pot_print") eqn:Epp.
    - destruct cell as [|c0 cell'] eqn:Ecell; cbn [isempty] in E.
      + injection E as <-. rewrite in_one. split; [intuition|]. intros [H|[H|H]]; [intuition|intuition|].
        destruct H as (? & ? & ? & ? & ? & ? & ? & ? & _ & _ & _ & N & _). congruence.
      + rewrite <- Ecell in *. destruct (pget cell "positions_frac" (VDict false [])) as [| | | | | | | | |b pos] eqn:Epos; try discriminate.
        bok E. injection E as <-.
        assert (Gpos : forall pos', group cell "positions_frac" pos' <-> pos' = pos).
        { intros pos'. rewrite <- (group_iff _ Hc), Epos. cbn. split; congruence. }
        assert (Fs : forall ss, Forall2 species_of_site (map fst pos) ss <-> ss = a0).
        { intros ss. rewrite (mapM_Forall2 species_of species_of_site) by apply species_iff. unfold keys in E0. rewrite E0. split; congruence. }
        rewrite in_map_iff. split.
        * intros [((x & y) & <- & Hxy)|H]; [|intuition]. right. right. apply pairs_in in Hxy as (be & af & E & Hy).
          exists g, pos, a0, (dedup [] a0), be, x, af, y. cbn [fst snd]. repeat apply conj; auto.
          -- now apply (pon_iff _ Hgd).
          -- rewrite Ecell. discriminate.
          -- now apply Gpos.
          -- now apply Fs.
          -- apply dedup_firsts.
        * intros [(_ & _ & N & _)|[H|H]]; [congruence|intuition|]. left.
          destruct H as (g' & pos' & ss & sp & be & x & af & y & _ & G & O & _ & Gp & F & Fi & E & Hy & ->).
          apply Gpos in Gp. subst pos'. apply Fs in F. subst ss.
          assert (sp = dedup [] a0) as -> by (eapply firsts_fun; [exact Fi|apply dedup_firsts]).
          exists (x, y). split; [reflexivity|]. apply pairs_in. eauto.
    - injection E as <-. split; [intros [[]|H]; intuition|]. intros [H|[H|H]]; [destruct H as (_ & H & _); discriminate|intuition|].
      destruct H as (g' & pos' & ss & sp & be & x & af & y & _ & G & O & _). rewrite (Ug _ G) in O. apply (pon_iff _ Hgd) in O. congruence.
  Qed.

  (** *** Pseudopotentials *)
  Context (spin_text : str) (Hsp : as_str (pget p "spin_treatment" (VStr ($"NONE"))) = Ok spin_text).
  Definition is_spin := str_eqb (upper spin_text) ($"VECTOR") || pon p "spin_orbit_coupling" ||
                   pon p "spin_polarised" || pon p "spin_polarized".
  Lemma spin_iff : is_spin = true <-> spin p.
  Proof.
    unfold is_spin, spin. rewrite !orb_true_iff, !(pon_iff _ Hp), str_eqb_eq. apply (says_iff _ Hp) in Hsp.
    assert (U : forall t', says p "spin_treatment" "NONE" t' -> t' = spin_text).
    { intros t' H'. apply (setting_iff _ Hp) in H'. apply (setting_iff _ Hp) in Hsp. congruence. }
    split.
    - intros [[[H|H]|H]|H]; eauto.
    - intros [(t' & H & E)|[H|[H|H]]]; auto. rewrite (U _ H) in E. auto.
  Qed.
  Lemma theory_iff th : theory_of first xc = Ok th -> forall th', ps_theory p (first xc) th' <-> th' = th.
  Proof.
    unfold theory_of, ps_theory. pose proof (meets_iff p xc ["libxc_mgga"; "libxc_hyb_mgga"]%string Fxc) as M1.
    pose proof (meets_iff p xc ["libxc_gga"; "libxc_hyb_gga"]%string Fxc) as M2.
    destruct (meets xc ["libxc_mgga"; "libxc_hyb_mgga"]%string).
    { intros H. injection H as <-. intros th'. intuition. }
    destruct (meets xc ["libxc_gga"; "libxc_hyb_gga"]%string).
    { intros H. injection H as <-. intros th'. intuition discriminate. }
    destruct (isempty xc); [discriminate|]. intros H. injection H as <-. intros th'.
    assert (K : In (first xc, th') ps_theories \/ ~ In (first xc) (map fst ps_theories) /\ th' = $"LDA" <->
      th' = match dget str_eqb XC_TO_PS_THEORY (first xc) with Some t0 => t0 | None => $"LDA" end).
    { change XC_TO_PS_THEORY with ps_theories.
      assert (Nd : NoDup (map fst ps_theories)) by (apply (NoDup_map_text); repeat (constructor; [cbn; intuition discriminate|]); constructor).
      destruct (dget str_eqb ps_theories (first xc)) as [t0|] eqn:E.
      - apply (dget_text _ _ _ Nd) in E. split.
        + intros [H|[H _]]; [|exfalso; apply H; apply in_map_iff; eexists; split; [|exact E]; reflexivity].
          apply (dget_text _ _ _ Nd) in H. apply (dget_text _ _ _ Nd) in E. congruence.
        + intros ->. now left.
      - split.
        + intros [H|[_ H]]; [|exact H]. apply (dget_text _ _ _ Nd) in H. congruence.
        + intros ->. right. split; [|reflexivity]. intros H. apply in_map_iff in H as ((n & t0) & E' & H). cbn in E'. subst n.
          apply (dget_text _ _ _ Nd) in H. congruence. }
    rewrite <- K. intuition discriminate.
  Qed.
  Definition is_mgga := meets xc ["ms2"; "rscan"; "r2scan"; "libxc_mgga"; "libxc_hyb_mgga"]%string.
  Lemma mgga_iff : is_mgga = true <-> meta_gga p.
  Proof. exact (meets_iff p xc _ Fxc). Qed.
  Definition otf_file (pots : dict) (f : str) : Prop :=
    exists b k pot th suf, In (k, VDict b pot) pots /\ ps_theory p (first xc) th /\
    (on pot "print" /\ In suf [$".gamma"; $".pwave"; $".beta"; $".econv"] \/
     ~ meta_gga p /\ on_by_default p "write_otfg" /\ (spin p /\ suf = $".uspso" \/ ~ spin p /\ suf = $".usp")) /\
    f = key_str ext k ++ $"_EXT_" ++ th ++ $"_OTF" ++ suf.
  Lemma pots_iff pots : (forall k v, In (k, v) pots -> well_keyed v) -> forall out st,
    foldM (pot_files first ext xc is_mgga is_spin (after p)) pots (true, out) = Ok st ->
    fst st = true /\ forall f, In f (snd st) <-> In f out \/ otf_file pots f.
  Proof.
    induction pots as [|[k v] pots IH]; intros Hw out st H.
    { cbn in H. injection H as <-. split; [reflexivity|]. intros f. cbn [snd]. split; [now left|]. intros [K|(b & k & pot & th & suf & [] & _)]. exact K. }
    cbn [foldM] in H. destruct (pot_files _ _ _ _ _ _ _ _) as [[u out']|] eqn:E; [|discriminate]. cbn [bind] in H.
    assert (E' : u = true /\ forall f, In f out' <-> In f out \/ otf_file [(k, v)] f).
    { clear H. unfold pot_files in E. cbn [fst snd] in E. 
      assert (Wv := Hw k v (or_introl eq_refl)).
      assert (K : (exists s, v = VStr s) \/ (th <- theory_of first xc ;; pot <- as_dict v ;;
         Ok (true, out ++ when (pon pot "print") (map (fun x => (key_str ext k ++ $"_EXT_" ++ th ++ $"_OTF") ++ x) [$".gamma"; $".pwave"; $".beta"; $".econv"]) ++
            when (negb is_mgga && truth (pget (after p) "write_otfg" (VBool true)))
              [(key_str ext k ++ $"_EXT_" ++ th ++ $"_OTF") ++ (if is_spin then $".uspso" else $".usp")])) = Ok (u, out')).
      { destruct v; try (right; exact E). left. eauto. }
      destruct K as [(s & ->)|K].
      - injection E as <- <-. split; [reflexivity|]. intros f. split; [now left|]. intros [K|(b & k' & pot & th & suf & [K|[]] & _)]; [exact K|discriminate].
      - clear E. bok K. apply ok_pair in K as [<- <-]. split; [reflexivity|]. intros f. destruct v as [| | | | | | | | |b its]; try discriminate. injection E0 as ->.
        rewrite !in_app_iff, !in_when, in_map_iff, in_one, andb_true_iff, negb_true_iff. rewrite after_keep by reflexivity.
        pose proof (proj1 (keyed_dict _ _ Wv)) as Ha0. rewrite (pon_iff _ Ha0), (pdef_iff _ Hp), <- not_true_iff_false, mgga_iff.
        assert (Es : forall suf, suf = (if is_spin then $".uspso" else $".usp") <-> spin p /\ suf = $".uspso" \/ ~ spin p /\ suf = $".usp").
        { intros suf. rewrite <- spin_iff. destruct is_spin; intuition congruence. }
        split.
        + intros [F|[(O & x & <- & Hx)|((M & O) & ->)]]; [now left| |]; right.
          * exists b, k, a0, a, x. repeat apply conj; [now left|now apply (theory_iff _ E)|now left|now rewrite !app_assoc].
          * exists b, k, a0, a, (if is_spin then $".uspso" else $".usp"). repeat apply conj; [now left|now apply (theory_iff _ E)| |now rewrite !app_assoc].
            right. repeat apply conj; auto. now apply Es.
        + intros [F|(b' & k' & pot & th & suf & [Hi|[]] & Hth & Hs & ->)]; [now left|]. injection Hi as -> -> ->. apply (theory_iff _ E) in Hth. subst th. right.
          rewrite !app_assoc. destruct Hs as [(O & Hi)|(M & O & Hs)].
          * left. split; [exact O|]. exists suf. split; [reflexivity|exact Hi].
          * right. repeat apply conj; auto. apply Es in Hs. now subst. }
    destruct E' as [-> Eo]. destruct (IH (fun k0 v0 Hi => Hw k0 v0 (or_intror Hi)) _ _ H) as [Hf Ho]. split; [exact Hf|].
    intros f. rewrite Ho, Eo. unfold otf_file. split.
    - intros [[K|(b & k' & pot & th & suf & [Hi|[]] & K)]|(b & k' & pot & th & suf & Hi & K)]; [now left| |]; right; exists b, k', pot, th, suf; (split; [|exact K]); cbn; auto.
    - intros [K|(b & k' & pot & th & suf & [Hi|Hi] & K)]; [auto| |].
      + left. right. exists b, k', pot, th, suf. split; [now left|exact K].
      + right. exists b, k', pot, th, suf. split; [exact Hi|exact K].
  Qed.

  (** *** Elastic constants *)
  Lemma elastic_iff x out : elastic_files devel seed (is_mgga || true || x) = Ok out ->
    forall f, In f out <-> (on devel "calc_elastic" \/ In (KStr ($"elastic")) (map fst devel)) /\ f = seed ++ $".elastic".
  Proof.
    unfold elastic_files. intros H f. rewrite <- (pon_iff _ Hd), <- (dmem_iff _ Hd), <- orb_true_iff.
    destruct (pon devel "calc_elastic" || dmem key_eqb devel (KStr ($"elastic"))).
    - bok H. apply ok_inj in H as <-. rewrite orb_true_r. cbn [orb negb]. rewrite andb_false_r. cbn. intuition.
    - injection H as <-. cbn. intuition discriminate.
  Qed.

  (** *** Molecular dynamics *)
  Lemma says_one k dflt x : as_str (pget p k (VStr ($dflt))) = Ok x -> forall t', says p k dflt t' <-> t' = x.
  Proof. intros H t'. rewrite <- (says_iff _ Hp), H. split; congruence. Qed.
  Definition farm_file (f : str) : Prop :=
    exists z i t, over p "md_num_beads" 1 1 /\ setting p "num_farms" (VInt 1) (VInt z) /\ (1 < z)%Z /\ (Z.of_nat i < z)%Z /\
      three_digits i t /\ f = seed ++ $"_farm" ++ t ++ $".castep".
  Definition extra (l : list string) : Prop :=
    (exists t, says p "metals_method" "dm" t /\ lower t = $"dm") /\
    (exists t w, says p "md_extrap" "first" t /\ lower t = $w /\ In w l) /\
    ((exists t, says p "opt_strategy" "default" t /\ lower t = $"memory") \/
     (exists v q, setting p "opt_strategy_bias" (VInt 0) v /\ number v q /\ (0 <= q)%Q)).
  Lemma md_iff out : md_files (after p) seed = Ok out -> forall f, In f out <->
    (written p "write_md" /\ f = seed ++ $".md") \/
    ((setting p "md_ensemble" VNone (VStr ($"nvhug")) \/ setting p "md_ensemble" VNone (VStr ($"nphug"))) /\ f = seed ++ $".hug") \/
    (extra ["first"; "second"; "mixed"] /\ (f = seed ++ $".*.wfm" \/ f = seed ++ $".*.drhom")) \/
    (extra ["second"; "mixed"] /\ (f = seed ++ $".*.wf2m" \/ f = seed ++ $".*.drho2m")) \/
    farm_file f.
  Proof.
    unfold md_files. rewrite !(after_keep p "md_ensemble"), !(after_keep p "md_extrap"), !(after_keep p "opt_strategy"),
      !(after_keep p "opt_strategy_bias"), !(after_keep p "metals_method"), !(after_keep p "md_num_beads"), !(after_keep p "num_farms") by reflexivity.
    intros H. bok H. apply ok_inj in H as <-. intros f.
    rewrite !in_app_iff, !in_when, !in_two, !in_one, (after_written p "write_md" Hp eq_refl), !andb_true_iff, !str_eqb_eq.
    assert (Eh : a = true <-> setting p "md_ensemble" VNone (VStr ($"nvhug")) \/ setting p "md_ensemble" VNone (VStr ($"nphug"))).
    { rewrite !(setting_iff _ Hp). unfold in_texts in E. destruct (hashable _); [|discriminate]. apply ok_inj in E as <-.
      destruct (pget p "md_ensemble" VNone); try (intuition discriminate). change (existsb _ _) with (text_in s ["nvhug"; "nphug"]%string).
      rewrite text_in_iff. split.
      - intros (x & [<-|[<-|[]]] & ->); auto.
      - intros [K|K]; [exists "nvhug"%string|exists "nphug"%string]; (split; [cbn; auto|congruence]). }
    destruct (as_str (pget p "md_extrap" (VStr ($"first")))) as [te|] eqn:Ee; [|discriminate]. cbn [rmap] in E0. apply ok_inj in E0 as <-.
    destruct (as_str (pget p "opt_strategy" (VStr ($"default")))) as [ts|] eqn:Es; [|discriminate]. cbn [rmap] in E1. apply ok_inj in E1 as <-.
    destruct (as_str (pget p "metals_method" (VStr ($"dm")))) as [tm|] eqn:Em; [|discriminate]. cbn [rmap] in E3. apply ok_inj in E3 as <-.
    pose proof (says_one _ _ _ Ee) as Ue. pose proof (says_one _ _ _ Es) as Us. pose proof (says_one _ _ _ Em) as Um.
    assert (Eo : a2 = true <-> (exists t, says p "opt_strategy" "default" t /\ lower t = $"memory") \/
     (exists v q, setting p "opt_strategy_bias" (VInt 0) v /\ number v q /\ (0 <= q)%Q) ).
    { destruct (str_eqb (lower ts) ($"memory")) eqn:Ew.
      - injection E2 as <-. apply str_eqb_eq in Ew. split; [|reflexivity]. intros _. left. exists ts. split; [now apply Us|exact Ew].
      - destruct (as_num (pget p "opt_strategy_bias" (VInt 0))) as [q|] eqn:Eq; [|discriminate]. cbn [rmap] in E2. apply ok_inj in E2 as <-. rewrite ge_iff. split.
        + intros K. right. exists (pget p "opt_strategy_bias" (VInt 0)), q. split; [now apply (setting_iff _ Hp)|]. split; [now apply num_iff|exact K].
        + intros [(t' & K & E')|(v & q' & K1 & K2 & K3)].
          * apply Us in K. subst t'. rewrite E', str_eqb_refl in Ew. discriminate.
          * apply (setting_iff _ Hp) in K1. rewrite K1 in Eq. apply num_iff in K2. assert (q = q') as -> by congruence. exact K3. }
    assert (Ex : forall l, extra l <-> (lower tm = $"dm" /\ text_in (lower te) l = true) /\ a2 = true).
    { intros l. unfold extra. rewrite Eo, text_in_iff. split.
      - intros ((t1 & H1 & E1) & (t2 & w & H2 & E2' & Hw) & K). apply Um in H1. apply Ue in H2. subst. eauto 6.
      - intros ((K1 & (x & Hx & K2)) & K3). split; [exists tm; split; [now apply Um|exact K1]|]. split; [exists te, x; split; [now apply Ue|auto]|exact K3]. }
    assert (Ef : In f a5 <-> farm_file f).
    { unfold farm_file. pose proof (over_iff p "md_num_beads" 1 1 a4 Hp E4) as Ob.
      destruct (gt_int a4 1).
      2:{ injection E5 as <-. split; [intros []|]. intros (z & i & t' & K & _). apply Ob in K. discriminate. }
      destruct (as_num (pget p "num_farms" (VInt 1))) as [a6|] eqn:E0; cbn [bind] in E5; [|discriminate E5]. destruct (gt_int a6 1) eqn:Eg.
      - unfold pget at 1 in E5. destruct (dget key_eqb p (KStr ($"num_farms"))) as [v|] eqn:Ev; [|discriminate].
        assert (Ev' : pget p "num_farms" (VInt 1) = v) by (unfold pget; now rewrite Ev).
        destruct v; try discriminate. apply ok_inj in E5 as <-. rewrite in_map_iff.
        apply gt_iff in Eg. rewrite Ev' in E0. cbn in E0. injection E0 as <-. rewrite <- Zlt_Qlt in Eg.
        split.
        + intros (i & <- & Hi). apply in_seq in Hi. exists z, i, (farm_no i). repeat apply conj; try reflexivity; [now apply Ob|now apply (setting_iff _ Hp)|lia|lia|].
          now apply farm_iff.
        + intros (z' & i & t' & _ & K & _ & L & K3 & ->). apply (setting_iff _ Hp) in K. rewrite Ev' in K. injection K as ->. apply farm_iff in K3. subst t'.
          exists i. split; [reflexivity|]. apply in_seq. lia.
      - injection E5 as <-. split; [intros []|]. intros (z & i & t' & _ & K & L & _). apply (setting_iff _ Hp) in K. rewrite K in E0. cbn in E0. injection E0 as <-.
        apply not_true_iff_false in Eg. apply Eg. apply gt_iff. now rewrite <- Zlt_Qlt. }
    rewrite Eh, !Ex, Ef. reflexivity.
  Qed.

  (** *** Spectral tasks *)
  Definition is_nlxc := meets xc ["hf"; "hf-lda"; "shf"; "sx-lda"; "shf-lda"; "pbe0"; "b3lyp"; "hse03"; "hse06"; "spbe0"]%string.
  Lemma nlxc_iff : is_nlxc = true <-> non_local p.
  Proof. exact (meets_iff p xc _ Fxc). Qed.
  Lemma spectral_iff out : task p "spectral" -> get_spectral_files (after p) seed is_nlxc = Ok out -> forall f, In f out <->
    f = seed ++ $"-out.cell" \/ (on_by_default p "spectral_restart" /\ f = seed ++ $".*.spec") \/
    ((on p "write_orbitals" \/ task_word p "BANDSTRUCTURE") /\ f = seed ++ $".orbitals") \/
    ((In (KStr ($"spectral_spinvec")) (map fst devel) /\ In (KStr ($"spectral_spinvec_append")) (map fst devel)) /\ f = seed ++ $".nc_spinvec") \/
    (exists g c w, group devel "spectral" g /\ spectral_theory p c /\ (c = "DFT"%string /\ w = $"." \/ c = "TDDFT"%string /\ w = $"_tddft.") /\
      by_rule (spectral_rules p g) (fun s => seed ++ w ++ $s ++ $"_bin") f).
  Proof.
    intros Hspec. unfold get_spectral_files. rewrite !(after_keep p "devel_code"), !(after_keep p "task"), !(after_keep p "spectral_theory"),
      !(after_keep p "spectral_task"), !(after_keep p "pdos_calculate_weights"), !(after_keep p "spectral_restart"), !(after_on p "write_orbitals") by reflexivity.
    rewrite Ht, Hdev. cbn [bind]. intros H. bok H. destruct a1 as [[el om] dm]. bok H. apply ok_inj in H as <-. intros f.
    assert (Gg : forall g, group devel "spectral" g <-> g = a1) by (intros g; rewrite <- (group_iff _ Hd); rewrite E2; split; congruence).
    pose proof (keyed_group _ _ _ _ Wd (proj2 (Gg a1) eq_refl)) as Wg. pose proof (proj1 (keyed_dict _ _ Wg)) as Hg.
    assert (Eth : forall c, spectral_theory p c <-> theory_name a = c).
    { intros c. unfold spectral_theory. split.
      - intros (v & Hv & Hch). apply (setting_iff _ Hp) in Hv. rewrite Hv in E. 
        change ["TDDFT"; "DFT"]%string with (map (@Datatypes.fst _ _) [("TDDFT", TDDFT); ("DFT", DFT)]%string) in Hch.
        apply choice_iff in Hch; [|repeat (constructor; [cbn; intuition discriminate|]); constructor|cbn; intuition congruence].
        destruct Hch as (e & He & Hi). unfold spectral_theory_members in E. assert (e = a) as -> by congruence. destruct Hi as [K|[K|[]]]; injection K as <- <-; reflexivity.
      - intros <-. exists (pget p "spectral_theory" (VStr ($"dft"))). split; [now apply (setting_iff _ Hp)|].
        change ["TDDFT"; "DFT"]%string with (map (@Datatypes.fst _ _) [("TDDFT", TDDFT); ("DFT", DFT)]%string).
        apply choice_iff; [repeat (constructor; [cbn; intuition discriminate|]); constructor|cbn; intuition congruence|]. exists a. split; [exact E|]. destruct a; cbn; auto. }
    assert (Etk : forall c, spectral_task p c <-> spectral_name a0 = c).
    { intros c. unfold spectral_task. split.
      - intros (v & Hv & Hch). apply (setting_iff _ Hp) in Hv. rewrite Hv in E0. 
        change ["CORELOSS"; "BANDSTRUCTURE"; "OPTICS"; "DOS"; "ALL"]%string with
          (map (@Datatypes.fst _ _) [("CORELOSS", CORELOSS); ("BANDSTRUCTURE", BANDSTRUCTURE); ("OPTICS", OPTICS); ("DOS", DOS); ("ALL", ALL)]%string) in Hch.
        apply choice_iff in Hch; [|repeat (constructor; [cbn; intuition discriminate|]); constructor|cbn; intuition congruence].
        destruct Hch as (e & He & Hi). unfold spectral_task_members in E0. assert (e = a0) as -> by congruence.
        destruct Hi as [K|[K|[K|[K|[K|[]]]]]]; injection K as <- <-; reflexivity.
      - intros <-. exists (pget p "spectral_task" (VStr ($"bandstructure"))). split; [now apply (setting_iff _ Hp)|].
        change ["CORELOSS"; "BANDSTRUCTURE"; "OPTICS"; "DOS"; "ALL"]%string with
          (map (@Datatypes.fst _ _) [("CORELOSS", CORELOSS); ("BANDSTRUCTURE", BANDSTRUCTURE); ("OPTICS", OPTICS); ("DOS", DOS); ("ALL", ALL)]%string).
        apply choice_iff; [repeat (constructor; [cbn; intuition discriminate|]); constructor|cbn; intuition congruence|]. exists a0. split; [exact E0|]. destruct a0; cbn; auto 6. }
    assert (Ecalc : (el = true <-> calculates p "elnes") /\ (om = true <-> calculates p "ome") /\ (dm = true <-> calculates p "dome")).
    { cbn [calculates]. rewrite !Eth, !Etk. pose proof nlxc_iff as Nl.
      destruct is_nlxc; (assert (Nl' : non_local p) by (now apply Nl)) || (assert (Nl' : ~ non_local p) by (intros K; apply Nl in K; discriminate)); clear Nl;
        destruct a, a0; cbn in E1; try discriminate; injection E1 as <- <- <-; cbn [theory_name spectral_name];
        (split; [|split]); (split; [intros K; try discriminate K|intros K; try reflexivity; exfalso; decompose [and or] K; try discriminate; contradiction]); auto 8. }
    destruct Ecalc as (Eel & Eom & Edm).
    assert (Ew : forall (b : bool) what key, (b = true <-> calculates p what) -> (truth (pget a1 key (VBool b)) = true <-> writes p a1 what key)).
    { intros b what key Eb. unfold writes. rewrite <- Eb. rewrite <- (pon_iff _ Hg). unfold pon, pget.
      destruct (dget key_eqb a1 (KStr ($key))) as [v|] eqn:Ev.
      - split; [now left|]. intros [K|[K _]]; [exact K|]. apply absent_dget in K. congruence.
      - apply absent_dget in Ev. cbn [truth]. clear -Ev. split; [auto|]. intros [K|[_ K]]; [discriminate K|exact K]. }
    assert (Epd : truth (pget a1 "calc_pdos" (pget p "pdos_calculate_weights" VNone)) = true <->
      on a1 "calc_pdos" \/ ~ In (KStr ($"calc_pdos")) (map Datatypes.fst a1) /\ on p "pdos_calculate_weights").
    { rewrite <- (pon_iff _ Hg), <- (pon_iff _ Hp). unfold pon, pget at 1 3.
      destruct (dget key_eqb a1 (KStr ($"calc_pdos"))) as [v|] eqn:Ev.
      - split; [now left|]. intros [K|[K _]]; [exact K|]. apply absent_dget in K. congruence.
      - apply absent_dget in Ev. cbn [truth]. clear -Ev. split; [auto|]. intros [K|[_ K]]; [discriminate K|exact K]. }
    rewrite !in_app_iff, !in_when, !in_one. rewrite (Ew el _ _ Eel), (Ew om _ _ Eom), (Ew dm _ _ Edm), Epd.
    rewrite (pdef_iff _ Hp), orb_true_iff, word_iff, (pon_iff _ Hp), andb_true_iff, !(dmem_iff _ Hd).
    set (w0 := match a with DFT => $"." | TDDFT => $"_tddft." end).
    assert (W : forall c w, spectral_theory p c /\ (c = "DFT"%string /\ w = $"." \/ c = "TDDFT"%string /\ w = $"_tddft.") <-> c = theory_name a /\ w = w0).
    { intros c w. rewrite Eth. unfold w0. destruct a; cbn [theory_name]; intuition (subst; try discriminate; auto). }
    split.
    - intros K. repeat (destruct K as [K|K]; [now auto|]). do 4 right. exists a1, (theory_name a), w0. split; [now apply Gg|].
      rewrite and_assoc_l. split; [now apply W|]. unfold by_rule, spectral_rules.
      destruct K as [(K & ->)|[(K & ->)|[(K & ->)|(K & ->)]]]; eexists; eexists; (split; [|split; [exact K|reflexivity]]); cbn; auto.
    - intros K. repeat (destruct K as [K|K]; [now auto|]). do 4 right. destruct K as (g & c & w & K1 & K2 & K3 & cond & s & Hi & Hc' & ->).
      apply Gg in K1. subst g. destruct (proj1 (W c w) (conj K2 K3)) as [_ ->].
      destruct Hi as [K|[K|[K|[K|[]]]]]; injection K as <- <-; auto.
  Qed.

  (** *** Phonons *)
  Definition phonons : Prop := task p "phonon" \/ task p "phonon_efield".
  Lemma phonon_iff out : phonon_files T (after p) devel seed = Ok (false, out) -> forall f, In f out <->
    (phonons /\ f = seed ++ $".phonon") \/ ((phonons /\ on p "phonon_calculate_dos") /\ f = seed ++ $".phonon_dos") \/
    ((phonons /\ (exists ph, group devel "phonon" ph /\ on ph "write_first_order_potential")) /\ f = seed ++ $"-*-*-*.ep_pot") \/
    (exists ph, group devel "phonon" ph /\ phonons /\ f <> [] /\ setting ph "write_external_born" VNone (VStr f)).
  Proof.
    unfold phonon_files. intros H f.
    assert (Ep : task_eqb T PHONON || task_eqb T PHONON_EFIELD = true <-> phonons) by (unfold phonons; now rewrite orb_true_iff, !is_task).
    destruct (task_eqb T PHONON || task_eqb T PHONON_EFIELD).
    2:{ injection H as <-. assert (N : ~ phonons) by (intros K; apply Ep in K; discriminate). split; [intros []|].
        intros [K|[K|[K|(ph & _ & K & _)]]]; tauto. }
    assert (P : phonons) by now apply Ep.
    rewrite (after_on p "phonon_calculate_dos") in H by reflexivity.
    bok H. apply ok_pair in H as [Eodd <-].
    assert (Gg : forall g, group devel "phonon" g <-> g = a) by (intros g; rewrite <- (group_iff _ Hd), E; split; congruence).
    pose proof (keyed_group _ _ _ _ Wd (proj2 (Gg a) eq_refl)) as Wg. pose proof (proj1 (keyed_dict _ _ Wg)) as Hg.
    rewrite !in_app_iff, !in_when, !in_one, (pon_iff _ Hp), (pon_iff _ Hg).
    assert (Eb : In f (snd a0) <-> f <> [] /\ setting a "write_external_born" VNone (VStr f)).
    { rewrite (setting_iff _ Hg). destruct (truth (pget a "write_external_born" VNone)) eqn:Et.
      - destruct (pget a "write_external_born" VNone) as [|b|z|x|x y|s|s|l|l|b l];
          try (destruct (hashable _); [injection E0 as <-; discriminate|discriminate]).
        injection E0 as <-. cbn [snd]. rewrite in_one. split; [intros ->; split; [|reflexivity]; destruct s; [discriminate|discriminate]|intros [_ K]; congruence].
      - injection E0 as <-. split; [intros []|]. intros [N K]. rewrite K in Et. destruct f; [congruence|discriminate]. }
    rewrite Eb. split.
    - intros [K|[K|[K|K]]]; [auto|tauto| |].
      + do 3 right. exists a. split; [now apply Gg|tauto].
      + right. right. left. split; [|tauto]. split; [exact P|]. exists a. split; [now apply Gg|tauto].
    - intros [K|[K|[K|K]]]; [tauto|tauto| |].
      + destruct K as ((_ & ph & G & O) & ->). apply Gg in G. subst ph. auto.
      + destruct K as (ph & G & _ & K). apply Gg in G. subst ph. auto.
  Qed.

  (** *** Time dependent theory *)
  Lemma tddft_iff b out : tddft_files b devel seed = Ok out -> forall f, In f out <->
    (b = true /\ f = seed ++ $".tddft") \/ ((b = true /\ (exists td, group devel "tddft" td /\ on td "den1_write")) /\ f = seed ++ $".td_den") \/
    ((b = true /\ (exists td, group devel "tddft" td /\ on td "save_td_den_fmt")) /\ f = $"den_dump*.dat").
  Proof.
    unfold tddft_files. destruct b.
    2:{ intros H. apply ok_inj in H as <-. intros f. split; [intros []|]. intros [K|[K|K]]; [destruct K as [K _]; discriminate|destruct K as [[K _] _]; discriminate|destruct K as [[K _] _]; discriminate]. }
    intros H. bok H. apply ok_inj in H as <-. intros f.
    assert (Gg : forall g, group devel "tddft" g <-> g = a) by (intros g; rewrite <- (group_iff _ Hd), E; split; congruence).
    pose proof (keyed_group _ _ _ _ Wd (proj2 (Gg a) eq_refl)) as Wg. pose proof (proj1 (keyed_dict _ _ Wg)) as Hg.
    assert (Ho : forall k, (exists td, group devel "tddft" td /\ on td k) <-> on a k).
    { intros k. split; [intros (td & G & O); apply Gg in G; now subst|intros O; exists a; split; [now apply Gg|exact O]]. }
    rewrite !in_app_iff, !in_when, !in_one, !(pon_iff _ Hg), !Ho. intuition.
  Qed.

  (** *** By task *)
  Lemma tasks_iff out : task_files T (after p) seed is_nlxc = Ok out -> forall f, In f out <->
    (task p "autosolvation" /\ f = seed ++ $".vacuum_den") \/
    (task p "epcoupling" /\ (f = seed ++ $".epme" \/ f = seed ++ $"-*-*-*.ep_pot")) \/
    (task p "geomopt" /\ (written p "write_geom" /\ f = seed ++ $".geom" \/ setting p "geom_method" VNone (VStr ($"pes")) /\ f = seed ++ $".pes")) \/
    (task p "spectral" /\ exists l, get_spectral_files (after p) seed is_nlxc = Ok l /\ In f l) \/
    (task p "md" /\ exists l, md_files (after p) seed = Ok l /\ In f l) \/
    (task p "magres" /\ (f = seed ++ $".magres" \/ on p "magres_write_response" /\ (f = $"current.dat" \/ f = $"gsden.cube"))) \/
    (task p "tss" /\ f = seed ++ $".ts").
  Proof.
    intros H f. rewrite !T_iff. unfold task_files in H.
    assert (Ux : forall r : result (list str), r = Ok out -> (In f out <-> exists l, r = Ok l /\ In f l)).
    { intros r ->. split; [eauto|]. intros (l & E & Hi). injection E as ->. exact Hi. }
    destruct T; try (apply ok_inj in H as <-); cbn [task_name];
      try (cbn [In]; intuition (subst; auto; discriminate)).
    - rewrite !in_app_iff, !in_when, !in_one, (after_written p "write_geom" Hp eq_refl), after_keep by reflexivity. rewrite (setting_iff _ Hp).
      assert (K : match pget p "geom_method" VNone with VStr s => str_eqb s ($"pes") | _ => false end = true <-> pget p "geom_method" VNone = VStr ($"pes")).
      { destruct (pget p "geom_method" VNone); try (split; discriminate). rewrite str_eqb_eq. split; congruence. }
      rewrite K. intuition discriminate.
    - rewrite (Ux _ H). intuition discriminate.
    - rewrite in_app_iff, in_when, in_one, in_two, after_on by reflexivity. rewrite (pon_iff _ Hp). intuition discriminate.
    - rewrite (Ux _ H). intuition discriminate.
  Qed.

  (** *** Single options *)
  Definition is_pp := truth (pget devel "_pp" (VBool false)).
  Lemma is_pp_iff : is_pp = true <-> post_processing devel.
  Proof.
    unfold post_processing. rewrite <- (pon_iff _ Hd). unfold is_pp, pon, pget. destruct (dget key_eqb devel (KStr ($"_pp"))); [reflexivity|]. cbn. tauto.
  Qed.
  Definition is_oep := meets xc ["oep"; "lfx"; "elp"; "ceda"]%string.
  Lemma is_oep_iff : is_oep = true <-> oep p.
  Proof. exact (meets_iff p xc _ Fxc). Qed.
  Definition option_rules : list (Prop * string) :=
  [((written p "write_bands" /\ ~ post_processing devel) /\ ~ on p "tddft_selected_state", ".bands");
   ((written p "write_bands" /\ ~ post_processing devel) /\ on p "tddft_selected_state", "_tddft.bands");
   (on devel "write_formatted_bands", "_*.orbit_fmt");
   (written p "write_bib", ".bib");
   (written p "write_cst_esp" /\ ~ post_processing devel, ".cst_esp");
   (on p "write_formatted_potential", ".pot_fmt");
   (on p "write_formatted_potential" /\ oep p, ".oep_fmt");
   (on p "write_formatted_density", ".den_fmt");
   (on p "calculate_densdiff", ".chdiff");
   (on p "calculate_densdiff" /\ on p "write_formatted_density", ".chdiff_fmt");
   (on p "calculate_elf", ".elf");
   (on p "calculate_elf" /\ on p "write_formatted_elf", ".elf_fmt");
   (on p "write_formatted_dielec_perm", ".eps_format");
   (on p "write_orbitals", ".orbitals");
   (on p "write_cif_structure", "-out.cif");
   (on p "write_cell_structure", "-out.cell");
   (on p "efield_calc_ion_permittivity", ".efield");
   (on p "calculate_modos", ".modos_state*");
   (on devel "zdos_scf", ".scf_zdos");
   (on devel "write_unformatted_density", ".altden");
   (on devel "trace" \/ on devel "prof" \/ on devel "profclass", ".*.profile");
   (on devel "write_formatted_bands", "_*.orbit_fmt");
   (on devel "pp_hybrid" /\ (task p "geomopt" \/ task p "md"), ".hybrid-md.xyz");
   (on devel "lda_sf_pot_write" /\ spin p, ".B_xc.pot_fmt");
   (on devel "calculate_xrd_sf", ".xrd_sf");
   (on devel "zdos_spectral" /\ task p "spectral", ".spectral_zdos")]%string.
  Lemma by_rule_cons c s rs name f : by_rule ((c, s) :: rs) name f <-> (c /\ f = name s) \/ by_rule rs name f.
  Proof.
    unfold by_rule. split.
    - intros (c' & s' & [E|H] & K & ->); [injection E as -> ->; auto|right; eauto 6].
    - intros [[K ->]|(c' & s' & H & K)]; [exists c, s|exists c', s']; cbn; auto.
  Qed.
  Lemma by_rule_nil name f : by_rule [] name f <-> False.
  Proof. split; [intros (c & s & [] & _)|intros []]. Qed.
  Lemma by_rule_app r1 r2 name f : by_rule (r1 ++ r2) name f <-> by_rule r1 name f \/ by_rule r2 name f.
  Proof.
    unfold by_rule. split.
    - intros (c & s & H & K). apply in_app_iff in H as [H|H]; eauto 6.
    - intros [(c & s & H & K)|(c & s & H & K)]; exists c, s; (split; [apply in_app_iff; auto|exact K]).
  Qed.
  Lemma rule1 (b : bool) (c : Prop) s rs rest f : (b = true <-> c) -> (In f rest <-> by_rule rs (fun s => seed ++ $s) f) ->
    (In f (when b [seed ++ $s] ++ rest) <-> by_rule ((c, s) :: rs) (fun s => seed ++ $s) f).
  Proof. intros Hb Hr. rewrite by_rule_cons, in_app_iff, in_when, in_one, Hb, Hr. reflexivity. Qed.
  Lemma rule2 (b b2 : bool) (c c2 : Prop) s s2 rs rest f : (b = true <-> c) -> (b2 = true <-> c2) -> (In f rest <-> by_rule rs (fun s => seed ++ $s) f) ->
    (In f (when b ([seed ++ $s] ++ when b2 [seed ++ $s2]) ++ rest) <-> by_rule ((c, s) :: (c /\ c2, s2) :: rs) (fun s => seed ++ $s) f).
  Proof. intros Hb Hb2 Hr. rewrite !by_rule_cons, !in_app_iff, in_when, in_app_iff, in_when, !in_one, Hb, Hb2, Hr. tauto. Qed.
  Lemma rule_if (b b2 : bool) (c c2 : Prop) s s2 rs rest f : (b = true <-> c) -> (b2 = true <-> c2) -> (In f rest <-> by_rule rs (fun s => seed ++ $s) f) ->
    (In f (when b [seed ++ if negb b2 then $s else $s2] ++ rest) <-> by_rule ((c /\ ~ c2, s) :: (c /\ c2, s2) :: rs) (fun s => seed ++ $s) f).
  Proof.
    intros Hb Hb2 Hr. rewrite !by_rule_cons, !in_app_iff, in_when, !in_one, Hb, Hr. clear Hr. destruct b2; cbn [negb].
    - assert (K : c2) by now apply Hb2. clear - K. tauto.
    - assert (K : ~ c2) by (intros K; apply Hb2 in K; discriminate). clear - K. tauto.
  Qed.
  Lemma options_iff f : In f (option_files (after p) devel T seed is_pp is_oep is_spin) <-> by_rule option_rules (fun s => seed ++ $s) f.
  Proof.
    unfold option_files, option_rules.
    assert (Op : forall k, existsb (String.eqb k) six = false -> (pon (after p) k = true <-> on p k)) by (intros k E; rewrite (after_on p k E); apply (pon_iff _ Hp)).
    assert (Od : forall k, pon devel k = true <-> on devel k) by apply (pon_iff _ Hd).
    assert (Tk : forall U k, task_name U = k -> (task_eqb T U = true <-> task p k)) by (intros U k <-; apply is_task).
    assert (Es : truth (pget (after p) "tddft_selected_state" (VInt 0)) = true <-> on p "tddft_selected_state").
    { rewrite (after_keep p "tddft_selected_state" _ eq_refl), <- (pon_iff _ Hp). unfold pon, pget. destruct (dget key_eqb p (KStr ($"tddft_selected_state"))); [reflexivity|]. cbn. tauto. }
    assert (Npp : negb is_pp = true <-> ~ post_processing devel) by now rewrite negb_true_iff, <- is_pp_iff, not_true_iff_false.
    apply rule_if; [rewrite andb_true_iff, Npp, (after_written p "write_bands" Hp eq_refl); reflexivity|exact Es|].
    apply rule1; [apply Od|].
    apply rule1; [apply (after_written p "write_bib" Hp eq_refl)|].
    apply rule1; [rewrite andb_true_iff, Npp, (after_written p "write_cst_esp" Hp eq_refl); apply and_comm|].
    apply rule2; [now apply Op|apply is_oep_iff|].
    apply rule1; [now apply Op|].
    apply rule2; [now apply Op|now apply Op|].
    apply rule2; [now apply Op|now apply Op|].
    do 6 (apply rule1; [now apply Op|]).
    do 2 (apply rule1; [apply Od|]).
    apply rule1; [rewrite !orb_true_iff, !Od; apply or_assoc|].
    apply rule1; [apply Od|].
    apply rule1; [rewrite andb_true_iff, orb_true_iff, Od, (Tk GEOMOPT _ eq_refl), (Tk MD _ eq_refl); reflexivity|].
    apply rule1; [rewrite andb_true_iff, Od, spin_iff; apply and_comm|].
    apply rule1; [apply Od|].
    rewrite <- (app_nil_r (when (pon devel "zdos_spectral" && _) _)).
    apply rule1; [rewrite andb_true_iff, Od, (Tk SPECTRAL _ eq_refl); reflexivity|]. symmetry. apply by_rule_nil.
  Qed.
End Main.
