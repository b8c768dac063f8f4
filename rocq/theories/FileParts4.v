(** Facts about .ts files. *)
From Coq Require Import QArith Qreduction.
From Verif Require Import PyBase PyFacts PyVal Regex RegexFacts RegexComplete CastepRes NumSpec NumFacts NumProps NumVal
  StrUtil SpecStr StrUtilFacts SpecLine SpecType TypeConv TypeConvFacts IntStr DictUtil SpecDict DictFacts DictSmall Stream StreamFacts
  SpecTable ColumnFacts TextParsers TextParsersFacts Header HeaderFacts SpecMd MdGeom MdFacts SpecBands BandsFacts NeedFacts SpecCastep CastepBlocks CastepFacts
  SpecFiles SpecFiles4 TextFiles FileFacts FileParts FileParts2 FileParts3.
Local Open Scope list_scope.
Local Open Scope nat_scope.

(** ** Which lines match *)
Lemma match_search r l x : re_match r l = Some x -> re_search r l = Some x.
Proof. unfold re_match, re_search. intros H. destruct l; cbn [search_from]; now rewrite H. Qed.
Lemma data_tag_parts l : re_search ATOMIC_DATA_TAG l <> None -> exists a x t r, l = a ++ x :: t ++ text_of "<--" ++ r /\ is_upper x = true /\
  at_edge (pa None a).
Proof.
  intros H. unfold re_search in H. destruct (search_from ATOMIC_DATA_TAG None l) as [[pre x]|] eqn:E; [clear H|now contradiction H].
  apply search_sound in E as (s' & E & E' & D). rewrite <- E' in E. unfold ATOMIC_DATA_TAG in D. cbn [RSeqs] in D.
  destruct D as (p1 & s1 & c1 & D1 & p2 & s2 & c2 & D2 & p3 & s3 & c3 & D3 & p4 & s4 & c4 & D4 & _).
  apply (den_rep_chr true 0 None is_space) in D1 as (w & Ew & _ & _ & _ & Ep & _).
  apply (den_rep_chr true 0 None is_space) in D3 as (w' & Ew' & _). apply (den_lit ($"<--")) in D4 as (E4 & _ & _).
  pose proof D2 as D2'. apply den_consumed in D2' as (v & Ev & _ & Hv).
  destruct D2 as (p5 & s5 & c5 & D2 & _). unfold ATOM_RE in D2. cbn [RSeqs] in D2. destruct D2 as (p6 & s6 & c6 & D2 & D2r).
  cbn [den] in D2. destruct D2 as (c7 & D2 & _). unfold ATOM_NAME_RE in D2. cbn [RSeqs] in D2.
  destruct D2 as (p8 & s8 & c8 & (Hb & <- & <- & <-) & p9 & s9 & c9 & D2 & _).
  unfold SPECIES_RE in D2. destruct D2 as (p10 & s10 & c10 & (y & Ey & Hy & _) & _).
  destruct v as [|z v]; [discriminate|].
  rewrite Ev in Ey. injection Ey as -> _. exists (pre ++ w), y, (v ++ w'), s4. split; [|split; [exact Hy|]].
    + rewrite E, Ew, Ev, Ew', E4. now rewrite <- !app_assoc.
    + intros c Ec. rewrite pa_app in Ec. rewrite Ep, Ec, Ev in Hb. unfold word_boundary in Hb. cbn in Hb. rewrite (upper_word _ Hy) in Hb.
      destruct (is_word c); [discriminate|reflexivity].
Qed.

Lemma untagged_data l : ~ mentions "<--" l -> re_search ATOMIC_DATA_TAG l = None.
Proof.
  intros H. destruct (re_search ATOMIC_DATA_TAG l) eqn:E; [exfalso|reflexivity]. destruct (data_tag_parts l) as (a & x & t & r & -> & _); [congruence|].
  apply H. exists (a ++ x :: t), r. now rewrite <- app_assoc.
Qed.
Lemma only_arrow body r u s : ~ In "<"%char body -> ~ mentions "<--" r -> body ++ text_of "<--" ++ r = u ++ text_of "<--" ++ s -> u = body.
Proof.
  revert u. induction body as [|c body IH]; intros u Hb Hr E.
  - destruct u as [|c1 u]; [reflexivity|exfalso]. cbn in E. injection E as <- E.
    destruct u as [|c2 u]; [discriminate|]. cbn in E. injection E as <- E.
    destruct u as [|c3 u]; [discriminate|]. cbn in E. injection E as <- E. apply Hr. now exists u, s.
  - destruct u as [|c1 u].
    + cbn in E. injection E as -> _. exfalso. apply Hb. now left.
    + cbn [app] in E. injection E as <- E. f_equal. apply IH; auto. intros C. apply Hb. now right.
Qed.
Lemma row_data body tag l : tagged body tag l -> (forall r, l = body ++ text_of "<--" ++ r -> ~ mentions "<--" r) -> no_capital_word body ->
  re_search ATOMIC_DATA_TAG l = None.
Proof.
  intros (g & e & -> & Hb & _) Hr Hc. destruct (re_search ATOMIC_DATA_TAG _) eqn:E; [exfalso|reflexivity].
  edestruct data_tag_parts as (a & x & t & r & El & Hx & He); [rewrite E; discriminate|].
  replace (a ++ x :: t ++ text_of "<--" ++ r) with ((a ++ x :: t) ++ text_of "<--" ++ r) in El by (now rewrite <- app_assoc).
  apply only_arrow in El; [|exact Hb|now apply Hr]. destruct (Hc a x t (eq_sym El)) as (a' & d & -> & Hd); [now apply capital_iff|].
  rewrite pa_snoc in He. apply word_char_iff in Hd. now rewrite (He d eq_refl) in Hd.
Qed.

(** ** One structure *)
Definition rc_key : key := kstr "reaction_coordinate".
Definition aliased (p p' : dict) : Prop :=
  NoDup (map fst p') /\
  (forall k, (forall s l, In (s, l) long_names -> k <> KStr (text_of l)) -> dget key_eqb p' k = dget key_eqb p k) /\
  (forall s l, In (s, l) long_names -> dget key_eqb p' (KStr (text_of l)) = dget key_eqb p (KStr (text_of s))).
Lemma short_not_long s l s' l' : In (s, l) long_names -> In (s', l') long_names -> KStr (text_of s) <> KStr (text_of l').
Proof.
  intros H H' E. destruct aliases_ok as (_ & _ & A). apply (A (KStr (text_of s))).
  - rewrite alias_keys, map_map. apply in_map_iff. now exists (s, l).
  - rewrite E, alias_keys, map_map. apply in_map_iff. now exists (s', l').
Qed.
Lemma long_inj s l s' l' : In (s, l) long_names -> In (s', l') long_names -> text_of l = text_of l' -> s = s'.
Proof.
  intros H H' E. apply (f_equal string_of_list_ascii) in E. unfold text_of in E. rewrite !string_of_list_ascii_of_string in E. subst l'.
  cbn in H, H'. repeat (destruct H as [H|H]; [injection H as <- <-; repeat (destruct H' as [H'|H']; [injection H'; congruence|]); contradiction|]). contradiction.
Qed.
Lemma realias p p' k v : aliased p p' -> (forall s l, In (s, l) long_names -> k <> KStr (text_of l)) ->
  exists out, tag_aliases (dset key_eqb p' k v) = Ok out /\ aliased (dset key_eqb p k v) out.
Proof.
  intros (Hn & H1 & H2) Hk. destruct aliases_ok as (A1 & A2 & A3).
  pose proof (dset_nodup key_eqb key_eqb_spec p' k v Hn) as Hn'.
  destruct (alias_fold false (dset key_eqb p' k v) TAG_ALIASES (dset key_eqb p' k v) Hn' A1 A2 A3 ltac:(reflexivity)) as (out & E1 & E2 & N' & B1 & B2 & B3).
  assert (Q : forall k', (forall s l, In (s, l) long_names -> k' <> KStr (text_of l)) -> dget key_eqb (dset key_eqb p' k v) k' = dget key_eqb (dset key_eqb p k v) k').
  { intros k' Hk'. rewrite !(dget_dset key_eqb key_eqb_spec). destruct (key_eqb k k'); [reflexivity|]. now apply H1. }
  assert (F : forall f t, In (f, t) TAG_ALIASES <-> exists s l, In (s, l) long_names /\ f = KStr (text_of s) /\ t = KStr (text_of l)).
  { intros f t. rewrite alias_keys, in_map_iff. split.
    - intros ([s l] & E & Hin). injection E as <- <-. exists s, l. auto.
    - intros (s & l & Hin & -> & ->). now exists (s, l). }
  exists out. split; [unfold tag_aliases, add_aliases; now rewrite E2|]. split; [exact N'|]. split.
  - intros k' Hk'. destruct (memb k' (map fst TAG_ALIASES)) eqn:M.
    + apply memb_iff in M. rewrite (B2 _ M). now apply Q.
    + rewrite B3; [now apply Q| |].
      * intros C. apply memb_iff in C. congruence.
      * intros f Hf. exfalso. apply F in Hf as (s & l & Hin & _ & ->). now apply (Hk' s l).
  - intros s l Hin. assert (Hf : In (KStr (text_of s), KStr (text_of l)) TAG_ALIASES) by (apply F; exists s, l; auto).
    rewrite <- Q by (intros s' l' Hin'; now apply (short_not_long s l s' l')).
    destruct (dget key_eqb (dset key_eqb p' k v) (KStr (text_of s))) as [w|] eqn:E.
    + exact (B1 _ _ _ Hf E).
    + rewrite B3.
      * rewrite (dget_dset key_eqb key_eqb_spec) in E |- *. destruct (key_eqb_spec k (KStr (text_of l))) as [->|_]; [now destruct (Hk s l Hin)|].
        destruct (key_eqb k (KStr (text_of s))); [discriminate|]. rewrite (H2 s l Hin). rewrite <- H1; [exact E|].
        intros s' l' Hin'. now apply (short_not_long s l s' l').
      * intros C. apply (A3 _ C). apply in_map_iff. now exists (KStr (text_of s), KStr (text_of l)).
      * intros f Hf'. apply F in Hf' as (s' & l' & Hin' & -> & El). injection El as El.
        assert (s = s') as <- by (eapply long_inj; eassumption). exact E.
Qed.
Definition ts_with (curr : dict) (it : SpecMd.item) : result dict :=
  match it with
  | MTime _ => Ok curr
  | MRow tag ns => append_to curr (KStr tag) (VList (map fval ns))
  | MAtom sp i tag x y z =>
      props <- match dget key_eqb curr (Header.atom_key sp i) with None => Ok [] | Some (VDict _ d) => Ok d | Some _ => Err TypeError end ;;
      props <- tag_aliases (dset key_eqb props (KStr tag) (VTuple (map fval [x; y; z]))) ;;
      Ok (dset key_eqb curr (Header.atom_key sp i) (VDict false props))
  end.
Lemma ts_line_item l o : ts_row l o -> forall curr, ts_line curr l = match o with Some it => ts_with curr it | None => Ok curr end.
Proof.
  intros [l' Hm|l' body tag ns Ht Hr _ Hn Hf Hc|l' a sp g ds t b tag x y z Ht _ Ha Hsp Hg Hg0 Hds Hc Hf Hb Hb0] curr; unfold ts_line.
  - now rewrite (untagged_data _ Hm), (untagged_search _ Hm).
  - rewrite (row_data _ _ _ Ht Hr Hc). destruct (tagged_search _ _ _ Ht) as (x & -> & ->).
    rewrite (get_numbers_line _ _ Hn), to_tuple_nums; [reflexivity| |exact Hf]. apply Forall_wf. eapply number_line_ok; eassumption.
  - destruct (atom_match _ _ _ _ _ _ _ _ _ _ _ Ht Ha Hsp Hg Hg0 Hds Hc Hb Hb0) as (r & Er & Ec). rewrite (match_search _ _ _ Er).
    assert (G : group_s r "spec" = sp /\ group_s r "index" = write_digits ds /\ group_s r "tag" = tag /\ map (group_s r) FST_D = map write_num [x; y; z]).
    { unfold group_s, FST_D. cbn [map]. rewrite Ec. repeat split; reflexivity. }
    destruct G as (G1 & G2 & G3 & G4). unfold atreg_match. rewrite G1, G2, G3, G4. rewrite py_int_digits by exact Hds. cbn [rmap bind].
    rewrite to_tuple_nums; [|apply Forall_wf, (columns_ok _ _ Hc)|exact Hf]. cbn [ts_with].
    destruct (match dget key_eqb curr _ with None => _ | Some _ => _ end); reflexivity.
Qed.
Lemma ts_fold ls its : ts_rows ls its -> forall curr, foldM ts_line ls curr = foldM ts_with its curr.
Proof.
  induction 1 as [|l o ls its Hl _ IH]; intros curr; cbn [foldM]; [reflexivity|]. rewrite (ts_line_item _ _ Hl).
  destruct o as [it|]; cbn [foldM bind]; [|apply IH]. destruct (ts_with curr it); cbn [bind]; [apply IH|reflexivity].
Qed.
Definition ts_item_ok (it : SpecMd.item) : Prop := match it with MTime _ => False | MRow t _ => ts_tag t | MAtom _ _ t _ _ _ => ts_tag t end.
Lemma ts_rows_ok ls its : ts_rows ls its -> Forall ts_item_ok its.
Proof. induction 1 as [|l o ls its Hl _ IH]; [constructor|]. destruct Hl; auto; constructor; auto. Qed.
Lemma ts_ok_item its : Forall ts_item_ok its -> Forall item_ok its.
Proof. apply Forall_impl. intros [|t ns|sp i t x y z]; cbn; [contradiction|intros [H _]; exact H|intros [H _]; exact H]. Qed.
Definition sim (v : pyval) (st : fstate) (curr : dict) : Prop :=
  NoDup (map fst curr) /\ dget key_eqb curr rc_key = Some v /\
  (forall s, KStr s <> rc_key -> dget key_eqb curr (KStr s) = dget key_eqb (f_curr st) (KStr s)) /\
  (forall k, (forall s, k <> KStr s) -> match dget key_eqb (f_ions st) k with
     | Some p => exists p', dget key_eqb curr k = Some (VDict false p') /\ aliased p p'
     | None => dget key_eqb curr k = None end).
Lemma aliased_nil : aliased [] [].
Proof. split; [constructor|]. now split. Qed.
Lemma sim_step v its st curr it : st_ok its st -> sim v st curr -> ts_item_ok it ->
  exists st' curr', st_ok (its ++ [it]) st' /\ ts_with curr it = Ok curr' /\ sim v st' curr'.
Proof.
  intros Hst (N & R & S1 & S2) Hit. destruct (with_item_ok its st it Hst) as (st' & E & Hst').
  { destruct it; cbn in *; [contradiction|apply Hit|apply Hit]. }
  exists st'. destruct it as [t|tag ns|sp i tag x y z]; [destruct Hit| |].
  - cbn [with_item ts_with] in *. destruct Hit as [Ht Hr]. assert (Hk : KStr tag <> rc_key) by (intros C; injection C as ->; now apply Hr).
    unfold append_tag in E. destruct (tag_ok_str tag Ht) as [T1 _]. rewrite T1 in E. unfold append_to in E |- *. rewrite (S1 _ Hk).
    assert (G : forall w, sim v {| f_curr := dset key_eqb (f_curr st) (KStr tag) w; f_ions := f_ions st |} (dset key_eqb curr (KStr tag) w)).
    { intros w. split; [now apply (dset_nodup key_eqb key_eqb_spec)|]. split; [|split].
      - rewrite (dget_dset key_eqb key_eqb_spec). destruct (key_eqb_spec (KStr tag) rc_key); [congruence|exact R].
      - intros s Hs. cbn [f_curr]. rewrite !(dget_dset key_eqb key_eqb_spec). destruct (key_eqb (KStr tag) (KStr s)); [reflexivity|now apply S1].
      - intros k Hs. cbn [f_ions]. rewrite !(dget_dset key_eqb key_eqb_spec). destruct (key_eqb_spec (KStr tag) k) as [<-|_]; [now destruct (Hs tag)|].
        now apply S2. }
    destruct (dget key_eqb (f_curr st) (KStr tag)) as [[]|]; try discriminate; cbn [bind] in E; injection E as <-;
      (eexists; split; [exact Hst'|]; split; [reflexivity|apply G]).
  - cbn [with_item ts_with] in *. injection E as <-. destruct Hit as [Ht Hr].
    assert (Hk : forall s, Header.atom_key sp i <> KStr s) by discriminate.
    assert (P : exists p p', match dget key_eqb (f_ions st) (Header.atom_key sp i) with Some p => p | None => [] end = p /\ aliased p p' /\
      match dget key_eqb curr (Header.atom_key sp i) with None => Ok [] | Some (VDict _ d) => Ok d | Some _ => Err TypeError end = Ok p').
    { specialize (S2 _ Hk). destruct (dget key_eqb (f_ions st) (Header.atom_key sp i)) as [p|].
      - destruct S2 as (p' & -> & Ha). eauto.
      - rewrite S2. exists [], []. split; [reflexivity|]. split; [apply aliased_nil|reflexivity]. }
    destruct P as (p & p' & Ep & Ha & ->). rewrite Ep in *. cbn [bind].
    destruct (realias p p' (KStr tag) (VTuple (map fval [x; y; z])) Ha) as (out & -> & Ho).
    { intros s l Hin C. injection C as C. now apply (not_long tag Ht s l Hin). }
    cbn [bind]. eexists. split; [exact Hst'|]. split; [reflexivity|]. split; [now apply (dset_nodup key_eqb key_eqb_spec)|]. split; [|split].
    + rewrite (dget_dset key_eqb key_eqb_spec). exact R.
    + intros s Hs. cbn [f_curr]. rewrite (dget_dset key_eqb key_eqb_spec). now apply S1.
    + intros k Hs. cbn [f_ions]. rewrite !(dget_dset key_eqb key_eqb_spec). destruct (key_eqb (Header.atom_key sp i) k); [eauto|now apply S2].
Qed.
Lemma sim_all v its : Forall ts_item_ok its -> exists st curr, st_ok its st /\ foldM ts_with its [(rc_key, v)] = Ok curr /\ sim v st curr.
Proof.
  intros H.
  assert (G : forall its done st curr, Forall ts_item_ok its -> st_ok done st -> sim v st curr ->
    exists st' curr', st_ok (done ++ its) st' /\ foldM ts_with its curr = Ok curr' /\ sim v st' curr').
  { clear. induction its as [|it its IH]; intros done st curr H S M; cbn [foldM].
    - rewrite app_nil_r. eauto.
    - inversion_clear H as [|? ? Hit Hits]. destruct (sim_step v done st curr it S M Hit) as (st1 & c1 & S1 & -> & M1). cbn [bind].
      destruct (IH (done ++ [it]) st1 c1 Hits S1 M1) as (st2 & c2 & S2 & E & M2). rewrite <- app_assoc in S2. eauto. }
  destruct (frame_state [] ltac:(constructor)) as (st0 & E0 & S0). injection E0 as <-.
  apply (G its [] {| f_curr := []; f_ions := [] |} [(rc_key, v)] H S0). split; [repeat constructor; intros []|]. split; [reflexivity|]. split.
  - intros s Hs. cbn [dget f_curr]. destruct (key_eqb_spec rc_key (KStr s)); [congruence|reflexivity].
  - intros k Hs. cbn [dget f_ions]. destruct (key_eqb_spec rc_key k) as [<-|_]; [now destruct (Hs ($"reaction_coordinate"))|reflexivity].
Qed.
Lemma structure_says_ok rc its st curr : Forall ts_item_ok its -> st_ok its st -> sim (SpecCastep.float_of rc) st curr ->
  exists d, tag_aliases curr = Ok d /\ structure_says rc its d.
Proof.
  intros Hit (N1 & C & N2 & I1 & I2) (N & R & S1 & S2). pose proof (ts_ok_item _ Hit) as Hit'.
  assert (K0 : forall s, KStr s <> rc_key -> dget key_eqb curr (KStr s) = rows_val its s).
  { intros s Hs. rewrite (S1 s Hs), C. cbn [curr_val]. destruct (str_eqb_spec s ($"time")) as [->|]; [|reflexivity].
    assert (T : last_time its = None).
    { clear -Hit. induction Hit as [|it its H _ IH]; [reflexivity|]. cbn. rewrite IH. destruct it; [destruct H|reflexivity|reflexivity]. }
    rewrite T. cbn [option_map]. unfold rows_val. destruct (rows_of ($"time") its) eqn:Q; [reflexivity|exfalso].
    apply (rows_tag_ok its ($"time") Hit'); [congruence|]. right. now left. }
  assert (Lr : forall s l, In (s, l) long_names -> KStr (text_of l) <> rc_key /\ KStr (text_of s) <> rc_key).
  { intros s l Hin. cbn in Hin. repeat (destruct Hin as [Hin|Hin]; [injection Hin as <- <-; split; discriminate|]). contradiction. }
  assert (L : forall s l, In (s, l) long_names -> absent curr (KStr (text_of l))).
  { intros s l Hin. apply absent_dget. rewrite K0 by apply (Lr s l Hin).
    unfold rows_val. destruct (rows_of (text_of l) its) eqn:Q; [reflexivity|exfalso].
    apply (not_long (text_of l)) with s l; auto. apply (rows_tag_ok its); [exact Hit'|congruence]. }
  destruct (tag_aliases_ok curr N) as (d & Ed & Nd & D1 & D2). exists d. split; [exact Ed|].
  assert (RC : rows_of ($"reaction_coordinate") its = []).
  { destruct (rows_of ($"reaction_coordinate") its) as [|r rs] eqn:Q; [reflexivity|exfalso].
    assert (I : In r (rows_of ($"reaction_coordinate") its)) by (rewrite Q; now left). unfold rows_of in I. apply in_flat_map in I as (it & Hin & I).
    rewrite Forall_forall in Hit. specialize (Hit it Hin). destruct it as [|t ns|]; try contradiction.
    destruct (text_dec t ($"reaction_coordinate")) as [->|]; [|contradiction]. destruct Hit as [_ Hit]. now apply Hit. }
  assert (AT : forall k v, (forall s, k <> KStr s) -> (In (k, v) d <-> dget key_eqb curr k = Some v)).
  { intros k v Hk. rewrite <- (entry_dget _ _ _ N). apply D1. intros s l _. apply Hk. }
  split.
  - exact Nd.
  - intros s v. assert (Lk : (exists sh l, In (sh, l) long_names /\ s = text_of l) \/ (forall sh l, In (sh, l) long_names -> KStr s <> KStr (text_of l))).
    { destruct (memb (KStr s) (map (fun a => KStr (text_of (snd a))) long_names)) eqn:Mb.
      - apply memb_iff, in_map_iff in Mb as ([sh l] & E & Hin). injection E as <-. left. exists sh, l. auto.
      - right. intros sh l Hin E. apply not_true_iff_false in Mb. apply Mb, memb_iff, in_map_iff. exists (sh, l). auto. }
    destruct Lk as [(sh & l & Hin & ->)|Lk].
    + change (In (KStr (text_of l), v) d) with (entry d (KStr (text_of l)) v). rewrite (D2 sh l v Hin (L sh l Hin)), (entry_dget _ _ _ N), K0 by apply (Lr sh l Hin).
      rewrite rows_val_some. destruct (long_not_time sh l Hin) as [Tl Ts]. split.
      * intros [Q ->]. right. apply (fh_long _ _ _ sh l Hin Q).
      * intros [[E _]|Hf]; [exfalso; apply (proj1 (Lr sh l Hin)); now rewrite E|].
        remember (text_of l) as tl eqn:Etl. destruct Hf as [t Ht|tag Q|s2 l2 Hin2 Q].
        -- exfalso. vm_compute in Tl. discriminate.
        -- subst. exfalso. apply (not_long (text_of l)) with sh l; auto. now apply (rows_tag_ok its).
        -- assert (s2 = sh) as -> by (eapply long_inj; eassumption). auto.
    + change (In (KStr s, v) d) with (entry d (KStr s) v). rewrite (D1 _ v Lk), (entry_dget _ _ _ N).
      destruct (key_eqb_spec (KStr s) rc_key) as [E|Hs].
      * rewrite E, R. injection E as ->. split.
        -- intros Q. injection Q as <-. now left.
        -- intros [[_ ->]|Hf]; [reflexivity|exfalso].
           assert (G : forall s, frame_has SpecCastep.float_of rows_value its s v -> s = text_of "reaction_coordinate" -> False).
           { intros s [t Ht|tag Q|s2 l2 Hin2 Q] Er; [discriminate|subst tag; exact (Q RC)|]. apply (proj1 (Lr s2 l2 Hin2)). now rewrite Er. }
           exact (G _ Hf eq_refl).
      * rewrite (K0 s Hs), rows_val_some. split.
        -- intros [Q ->]. right. apply (fh_rows _ _ _ s Q).
        -- intros [[-> _]|Hf]; [now contradiction Hs|]. destruct Hf as [t Ht|tag Q|s2 l2 Hin2 Q].
           ++ exfalso. clear -Hit Ht. induction Hit as [|it its H _ IH]; [discriminate|]. cbn in Ht. destruct (last_time its); [apply IH; exact Ht|].
              destruct it; [destruct H|discriminate|discriminate].
           ++ auto.
           ++ now destruct (Lk s2 l2 Hin2).
  - intros sp i. assert (Hk : forall s, SpecDict.atom_key (sp, i) <> KStr s) by discriminate.
    assert (Q : absent d (SpecDict.atom_key (sp, i)) <-> dget key_eqb curr (SpecDict.atom_key (sp, i)) = None).
    { split.
      - intros A. destruct (dget key_eqb curr (SpecDict.atom_key (sp, i))) as [v|] eqn:E; [exfalso|reflexivity]. apply (AT _ v Hk) in E. apply A.
        apply in_map_iff. now exists (SpecDict.atom_key (sp, i), v).
      - intros E A. apply in_map_iff in A as ([k v] & Ek & A). cbn in Ek. subst k. apply (AT _ v Hk) in A. congruence. }
    rewrite Q. specialize (S2 _ Hk). change (SpecDict.atom_key (sp, i)) with (Header.atom_key sp i) in *. split.
    + intros Ha. apply I2 in Ha. destruct (dget key_eqb (f_ions st) (Header.atom_key sp i)) as [p|]; [|congruence]. destruct S2 as (p' & -> & _). discriminate.
    + intros H. destruct (dget key_eqb (f_ions st) (Header.atom_key sp i)) as [p|] eqn:E; [|congruence].
      destruct (I1 _ _ E) as (sp' & i' & Ek & Ha & _). injection Ek as <- <-. exact Ha.
  - intros k v Hin. destruct k as [|b|z|f|s|ks]; try (right; apply AT in Hin; [|discriminate]; match goal with H : dget key_eqb curr ?k = _ |- _ => specialize (S2 k ltac:(discriminate)); rewrite Hin in S2;
      destruct (dget key_eqb (f_ions st) k) as [p|] eqn:E; [|discriminate]; destruct (I1 _ _ E) as (sp & i & Ek & _); discriminate end).
    + left. now exists s.
    + right. apply AT in Hin; [|discriminate]. specialize (S2 (KTuple ks) ltac:(discriminate)). rewrite Hin in S2.
      destruct (dget key_eqb (f_ions st) (KTuple ks)) as [p|] eqn:E; [|discriminate]. destruct (I1 _ _ E) as (sp & i & Ek & _ & Np & G).
      destruct S2 as (p' & Ev & Np' & A1 & A2). injection Ev as ->. exists sp, i, p'. split; [exact Ek|]. split; [reflexivity|]. split; [exact Np'|].
      intros k' w. change (In (k', w) p') with (entry p' k' w). rewrite (entry_dget _ _ _ Np').
      assert (Lk : (exists s l, In (s, l) long_names /\ k' = KStr (text_of l)) \/ (forall s l, In (s, l) long_names -> k' <> KStr (text_of l))).
      { destruct (memb k' (map (fun a => KStr (text_of (snd a))) long_names)) eqn:Mb.
        - apply memb_iff, in_map_iff in Mb as ([s l] & <- & Hl). left. exists s, l. auto.
        - right. intros s l Hl ->. apply not_true_iff_false in Mb. apply Mb, memb_iff, in_map_iff. exists (s, l). auto. }
      destruct Lk as [(s & l & Hl & ->)|Lk].
      * rewrite (A2 s l Hl), G. cbn [ion_val]. split.
        -- destruct (vector_of sp i (text_of s) its) as [q|] eqn:V; [|discriminate]. intros Eq. injection Eq as <-.
           exists (text_of l). split; [reflexivity|]. exact (ah_long _ _ _ _ _ _ _ Hl V).
        -- intros (s' & Es & Hf). injection Es as <-. remember (text_of l) as tl eqn:Etl. destruct Hf as [tag q V|s2 l2 q Hin2 V].
           ++ subst. exfalso. apply (vector_tag_ok _ _ _ _ _ Hit') in V as [V _]. now apply (not_long (text_of l)) with s l.
           ++ assert (s2 = s) as -> by (eapply long_inj; eassumption). now rewrite V.
      * rewrite (A1 k' Lk), G. split.
        -- intros Hc. destruct k' as [| | | |s|]; try discriminate. exists s. split; [reflexivity|]. cbn in Hc.
           destruct (vector_of sp i s its) as [q|] eqn:V; [|discriminate]. injection Hc as <-. exact (ah_tag _ _ _ _ _ _ V).
        -- intros (s & -> & Hf). cbn [ion_val]. destruct Hf as [tag q V|s2 l2 q Hin2 V]; [now rewrite V|]. exfalso. now apply (Lk s2 l2).
Qed.
Lemma empty_blanks l : blanks l <-> re_test EMPTY l = true.
Proof.
  rewrite blanks_iff. unfold re_test. split.
  - intros H. assert (M : exists x, re_match EMPTY l = Some x).
    { unfold re_match. rewrite <- (app_nil_r l). rewrite (fp_match_at _ _ _ _ []); [eauto|]. unfold EMPTY. cbn [RSeqs].
      change l with ([] ++ l). apply fp_seq with (c1 := []); [apply fp_bol|]. cbn [pa]. rewrite <- (app_nil_r l). apply fp_seq with (c1 := []).
      - apply fp_star_chr; [exact H|exact I].
      - now apply fp_eol. }
    destruct M as (x & M). now rewrite (match_search _ _ _ M).
  - intros H. destruct (re_search EMPTY l) as [x|] eqn:E; [clear H|discriminate]. unfold re_search in E.
    destruct (search_from EMPTY None l) as [[pre y]|] eqn:E'; [|discriminate]. apply search_sound in E' as (s' & E1 & E2 & D). rewrite <- E2 in E1.
    destruct D as (p1 & s1 & c1 & (Hp & <- & <- & <-) & p2 & s2 & c2 & D & D').
    assert (pre = []) as ->. { destruct pre as [|c pre _] using rev_ind; [reflexivity|]. rewrite pa_snoc in Hp. discriminate. }
    apply (den_rep_chr true 0 None is_space) in D as (w & Ew & _ & _ & Hw & _). destruct D' as (He & _). rewrite E1, Ew. cbn [app].
    rewrite forallb_app, Hw. cbn [andb]. unfold at_end in He. destruct s2 as [|c [|]]; [reflexivity| |discriminate].
    cbn in *. destruct (Ascii.eqb_spec c newline) as [->|]; [reflexivity|discriminate].
Qed.
Lemma fp_kind k p s c : fp TextFiles.ts_kind p (text_of (kind_word k)) s c c.
Proof.
  unfold TextFiles.ts_kind. cbn [RAlts]. destruct k.
  - apply fp_alt_l, (fp_lit p ($"REA")).
  - apply fp_alt_r; [now apply nomatch_first|]. apply fp_alt_l, (fp_lit p ($"PRO")).
  - apply fp_alt_r; [now apply nomatch_first|]. apply fp_alt_r; [now apply nomatch_first|]. apply (fp_lit p ($"TST")).
Qed.
Lemma head_kind k rc l : ts_head k rc l -> re_test TextFiles.ts_kind l = true.
Proof.
  intros [a g ds t s Ha _ _ _ _ _]. unfold re_test, re_search. rewrite (search_from_pre _ _ _ _ _ []); [reflexivity| |apply fp_kind].
  apply skips_first; [reflexivity|]. apply forallb_forall. intros c Hc. unfold blanks in Ha. rewrite Forall_forall in Ha. specialize (Ha c Hc).
  apply blank_iff in Ha. cbn. destruct (Ascii.eqb_spec "R" c) as [<-|_]; [discriminate|]. destruct (Ascii.eqb_spec "P" c) as [<-|_]; [discriminate|].
  destruct (Ascii.eqb_spec "T" c) as [<-|_]; [discriminate|reflexivity].
Qed.
Lemma no_kind l : Forall (fun w => ~ mentions w l) ["REA"; "PRO"; "TST"]%string -> re_test TextFiles.ts_kind l = false.
Proof.
  intros H. unfold re_test, re_search. destruct (search_from TextFiles.ts_kind None l) as [[pre x]|] eqn:E; [exfalso|reflexivity].
  apply search_sound in E as (s' & E & E' & D). rewrite <- E' in E. unfold TextFiles.ts_kind in D. cbn [RAlts] in D.
  inversion_clear H as [|? ? H1 H']. inversion_clear H' as [|? ? H2 H'']. inversion_clear H'' as [|? ? H3 _].
  destruct D as [D|[D|D]].
  - apply (den_lit ($"REA")) in D as (D & _). apply H1. exists pre. eexists. rewrite E, D. reflexivity.
  - apply (den_lit ($"PRO")) in D as (D & _). apply H2. exists pre. eexists. rewrite E, D. reflexivity.
  - apply (den_lit ($"TST")) in D as (D & _). apply H3. exists pre. eexists. rewrite E, D. reflexivity.
Qed.
Lemma head_match k rc l : ts_head k rc l -> exists x, re_match TS_HEAD_RE l = Some x /\ group_s x "type" = text_of (kind_word k) /\
  group_s x "reaction_coordinate" = write_num rc.
Proof.
  intros [a g ds t s Ha Hg Hds Hc Hs _]. apply blanks_iff in Ha, Hg.
  replace (a ++ text_of (kind_word k) ++ g ++ write_digits ds ++ t ++ s) with (concat [a; text_of (kind_word k); g; write_digits ds; t] ++ s)
    by (cbn [concat]; now rewrite app_nil_r, <- !app_assoc).
  assert (Hte : token_end (t ++ s)) by (eapply columns_end; [exact Hc|discriminate]).
  unfold re_match. rewrite (fp_match_at _ _ _ _ (row_caps ["reaction_coordinate"%string] [rc] [("type"%string, text_of (kind_word k))])).
  - eexists. split; [reflexivity|]. split; reflexivity.
  - change TS_HEAD_RE with (RSeqs [ws_star; RGrp "type" TextFiles.ts_kind; ws_star; RPlus c_digit; RSeq ws_star (labelled_floats ["reaction_coordinate"%string])]).
    apply fp_seqs. eapply fpl_cons; [apply fp_star_chr; [exact Ha|now destruct k]|]. eapply fpl_cons; [apply fp_grp, fp_kind|].
    eapply fpl_cons; [apply fp_star_chr; [exact Hg|]|].
    { cbn [concat]. rewrite <- app_assoc. apply write_digits_hd; [exact Hds|]. intros c Hd. now apply digit_not_space. }
    eapply fpl_cons; [apply fp_plus_chr; [apply write_digits_all|destruct ds; [congruence|discriminate]|]|].
    { cbn [concat]. rewrite app_nil_r. apply token_end_hd in Hte. destruct (t ++ s) as [|c u]; [exact I|]. cbn in *. apply negb_false_iff in Hte. now apply space_not_digit. }
    eapply fpl_cons; [|constructor]. cbn [concat app]. apply fp_ws_labelled; [exact Hc|reflexivity|discriminate|exact Hs].
Qed.
Lemma ts_block_ok it b e : ts_lines it b -> Forall blanks e -> match it with
  | Confirmation => False
  | Structure k rc its => exists l body d, b = l :: body /\ structure_says rc its d /\ forall accum, ts_block accum l (b ++ e) = append_to accum (kstr (kind_name k)) (VDict true d)
  end.
Proof.
  intros [k rc its l body Hh Hc Hm Hn Hr] He.
  destruct (sim_all (SpecCastep.float_of rc) its (ts_rows_ok _ _ Hr)) as (st & curr & Hst & Ec & Hsim).
  destruct (structure_says_ok rc its st curr (ts_rows_ok _ _ Hr) Hst Hsim) as (d & Ed & Hd).
  exists l, body, d. split; [reflexivity|]. split; [exact Hd|]. intros accum. unfold ts_block.
  destruct (head_match _ _ _ Hh) as (x & -> & Gt & Gr). rewrite Gt, Gr.
  assert (dgetE str_eqb TS_TYPES (text_of (kind_word k)) = Ok (kstr (kind_name k))) as -> by now destruct k. cbn [bind].
  assert (F : to_type TFloat (VStr (write_num rc)) = Ok (SpecCastep.float_of rc)).
  { destruct Hh as [a g ds t s _ _ _ Hcol _ Hf]. apply to_float; [|now inversion Hf]. pose proof (columns_ok _ _ Hcol) as Q. inversion_clear Q as [|? ? Q1 _]. now apply num_ok_wf. }
  rewrite F. cbn [bind]. assert (Hb : ts_rows ((l :: body) ++ e) its).
  { cbn [app]. apply (trs_cons l None (body ++ e) its); [now constructor|].
    clear -Hr He. induction Hr as [|l o ls its Hl _ IH]; [|now constructor]. cbn [app]. induction He as [|x e Hx _ IH]; [constructor|].
    apply (trs_cons x None e []); [|exact IH].
    constructor. intros (u & v & ->). unfold blanks in Hx. rewrite !Forall_app in Hx. destruct Hx as (_ & Hx & _). inversion Hx as [|? ? Hx0 _]. apply blank_iff in Hx0. discriminate. }
  rewrite (ts_fold _ _ Hb). change (kstr "reaction_coordinate") with rc_key. rewrite Ec. cbn [bind]. rewrite Ed. reflexivity.
Qed.

(** ** Whole files *)
Definition conf_key : key := kstr "confirmation".
Definition conf : list (key * pyval) := [named "confirmation" (VBool true)].
Lemma values_absent k (es : dict) : Forall (fun e => fst e <> k) es -> values_of k es = [].
Proof.
  induction 1 as [|[k' v] es H _ IH]; [reflexivity|]. unfold values_of. cbn [flat_map fst snd]. destruct (key_eqb_spec k' k) as [->|_]; [now destruct H|]. exact IH.
Qed.
Lemma gathered_conf c es d : gathered c es d -> c = [] \/ c = conf -> Forall (fun e => fst e <> conf_key) es -> gathered conf es (dset key_eqb d conf_key (VBool true)).
Proof.
  intros [Hd Hin] Hc He. split; [now apply (dset_nodup key_eqb key_eqb_spec)|]. intros k v. rewrite dset_in by exact Hd. split.
  - intros [[-> ->]|[Hn H]]; [left; now left|]. apply Hin in H as [H|H]; [|now right]. destruct Hc as [->| ->]; [destruct H|now left].
  - intros [[H|[]]|(vs & Hv & -> & Hcol)]; [injection H as <- <-; now left|]. right. split.
    + intros ->. apply column_values in Hcol. rewrite (values_absent _ _ He) in Hcol. congruence.
    + apply Hin. right. eauto.
Qed.
Lemma scan_blank body e ls : Forall (fun x => ~ blanks x) body -> blanks e -> l_scan (re_test EMPTY) 1 0 (body ++ e :: ls) = (body ++ [e], true, ls).
Proof.
  intros H He. apply l_scan_first; [|now apply empty_blanks]. apply forallb_forall. intros x Hx. rewrite Forall_forall in H. specialize (H x Hx).
  apply negb_true_iff. exact (not_true _ _ (empty_blanks _) H).
Qed.
Lemma scan_end body : Forall (fun x => ~ blanks x) body -> l_scan (re_test EMPTY) 1 0 body = (body, false, []).
Proof.
  induction 1 as [|x body H _ IH]; [reflexivity|]. cbn [l_scan]. rewrite (not_true _ _ (empty_blanks _) H), IH. reflexivity.
Qed.
Lemma head_solid k rc l r : ts_head k rc l -> l_bool (l :: r) = true.
Proof.
  intros [a g ds t s _ _ _ _ _ _]. unfold l_bool. cbn [existsb]. apply orb_true_iff. left. apply negb_true_iff.
  destruct k; (eapply nonblank_in; [apply in_or_app; right; now left|reflexivity]).
Qed.
Lemma ts_step_structure it b e ls : ts_lines it b -> (e = [] /\ ls = []) \/ (exists x, e = [x] /\ blanks x) ->
  exists l body es, b = l :: body /\ structure_entry it es /\ (exists k v, es = [(k, v)] /\ k <> conf_key /\
    forall accum, ts_step accum l (body ++ e ++ ls) = (d <- append_to accum k v ;; Ok (d, ls))).
Proof.
  intros H He. assert (Hb : Forall blanks e) by (destruct He as [[-> _]|(x & -> & Hx)]; repeat constructor; exact Hx).
  pose proof (ts_block_ok it b e H Hb) as B. destruct H as [k rc its l body Hh Hc Hm Hn Hr]. destruct B as (l' & body' & d & El & Hd & B). injection El as <- <-.
  exists l, body, [named (kind_name k) (VDict true d)]. split; [reflexivity|]. split; [exists d; auto|].
  exists (kstr (kind_name k)), (VDict true d). split; [reflexivity|]. split; [now destruct k|]. intros accum. unfold ts_step.
  rewrite (not_true _ _ (mentions_iff _ _) Hc). unfold if_block, l_from_re. rewrite (head_kind _ _ _ Hh). cbn [negb].
  destruct He as [[-> ->]|(x & -> & Hx)].
  - cbn [app]. rewrite app_nil_r, (scan_end _ Hn). cbn [orb]. rewrite (head_solid _ _ _ _ Hh). specialize (B accum). rewrite app_nil_r in B. now rewrite B.
  - cbn [app]. rewrite (scan_blank _ _ _ Hn Hx). cbn [orb]. rewrite (head_solid _ _ _ _ Hh). specialize (B accum). cbn [app] in B. now rewrite B.
Qed.
Definition with_conf (c : dict) (its : list ts_item) : dict :=
  if existsb (fun it => match it with Confirmation => true | _ => false end) its then conf else c.
Lemma conf_absent c k : c = [] \/ c = conf -> k <> conf_key -> absent c k.
Proof. intros [->| ->] H; [intros []|]. intros [C|[]]. cbn in C. now apply H. Qed.
Lemma ts_loop its ls : ts_file its ls -> forall c es accum n, gathered c es accum -> c = [] \/ c = conf -> Forall (fun e => fst e <> conf_key) es ->
  length ls <= n -> exists d ess, file_loop ts_step n accum ls = Ok d /\ Forall2 structure_entry its ess /\ gathered (with_conf c its) (es ++ concat ess) d.
Proof.
  induction 1 as [|l ls its Hm _ IH|l ls its Hm _ IH|it ls H|it b e ls its H He _ IH]; intros c es accum n Hg Hc Hes Hl.
  - exists accum, []. split; [now destruct n|]. split; [constructor|]. cbn. now rewrite app_nil_r.
  - destruct n as [|n]; [cbn in Hl; lia|]. destruct (IH c es accum n Hg Hc Hes ltac:(cbn in Hl; lia)) as (d & ess & E & H1 & H2). exists d, ess. split; [|auto].
    rewrite <- E. apply loop_cons. unfold ts_step. inversion_clear Hm as [|? ? H0 H']. rewrite (not_true _ _ (mentions_iff _ _) H0).
    unfold if_block, l_from_re. rewrite (no_kind _ H'). reflexivity.
  - destruct n as [|n]; [cbn in Hl; lia|].
    destruct (IH conf es _ n (gathered_conf _ _ _ Hg Hc Hes) ltac:(now right) Hes ltac:(cbn in Hl; lia)) as (d & ess & E & H1 & H2).
    exists d, ([] :: ess). split; [|split; [now constructor|]].
    + rewrite <- E. apply loop_cons. unfold ts_step. now rewrite (proj1 (mentions_iff _ _) Hm).
    + cbn [concat app]. unfold with_conf in *. cbn [existsb orb]. now destruct (existsb _ its).
  - destruct (ts_step_structure it ls [] [] H ltac:(now left)) as (l & body & es1 & -> & Hs & k & v & -> & Hk & B).
    destruct n as [|n]; [cbn in Hl; lia|]. destruct (gathered_step c es accum k v (conf_absent _ _ Hc Hk) Hg) as (d & E & Hd).
    exists d, [[(k, v)]]. specialize (B accum). rewrite E in B. cbn [app bind] in B. rewrite app_nil_r in B. split; [|split; [now repeat constructor|]].
    + rewrite (loop_cons _ _ _ _ _ _ _ B). now destruct n.
    + cbn [concat app]. unfold with_conf. cbn. destruct it; [|exact Hd]. cbn in Hs. discriminate.
  - destruct (ts_step_structure it b [e] ls H ltac:(right; eauto)) as (l & body & es1 & -> & Hs & k & v & -> & Hk & B).
    destruct n as [|n]; [cbn in Hl; lia|]. destruct (gathered_step c es accum k v (conf_absent _ _ Hc Hk) Hg) as (d1 & E & Hd).
    destruct (IH c (es ++ [(k, v)]) d1 n Hd Hc) as (d & ess & E' & H1 & H2).
    { apply Forall_app. split; [exact Hes|repeat constructor; exact Hk]. }
    { cbn [app length] in Hl. rewrite app_length in Hl. cbn in Hl. lia. }
    exists d, ([(k, v)] :: ess). specialize (B accum). rewrite E in B. cbn [app bind] in B. split; [|split; [now constructor|]].
    + cbn [app]. rewrite (loop_cons _ _ _ _ _ _ _ B). exact E'.
    + cbn [concat]. rewrite app_assoc. unfold with_conf in *. cbn [existsb]. destruct it; [cbn in Hs; discriminate|]. exact H2.
Qed.
Theorem ts_exact its ls : ts_file its ls -> exists d, parse_ts_file ls = Ok (VDict true d) /\ ts_says its d.
Proof.
  intros H. destruct (ts_loop its ls H [] [] [] (length ls)) as (d & ess & E & H1 & H2); auto.
  - split; [constructor|]. intros k v. split; [intros []|]. intros [[]|(vs & Hv & _ & Hc)]. inversion Hc; subst. congruence.
  - exists d. split; [unfold parse_ts_file, over_file; now rewrite E|]. exists ess. split; [exact H1|]. unfold confirmations. exact H2.
Qed.
