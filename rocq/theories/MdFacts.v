(** Facts about .md/.geom frames. *)
From Verif Require Import PyBase PyFacts PyVal IntStr Regex RegexFacts RegexComplete CastepRes NumSpec SpecLine NumFacts NumVal NumProps
  SpecTable SpecStr StrUtilFacts SpecText SpecBands SpecDict Stream StreamFacts TypeConv TypeConvFacts ColumnFacts DictUtil DictFacts DictSmall
  TextParsersFacts Header HeaderFacts SpecMd MdGeom.
Local Open Scope list_scope.
Local Open Scope nat_scope.

(** ** Character classes *)
Lemma in_range_iff a b c : in_range a b c = true <-> (a <= N_of_ascii c <= b)%N.
Proof. unfold in_range, ord. rewrite andb_true_iff, !N.leb_le. reflexivity. Qed.
Lemma capital_iff c : capital c <-> is_upper c = true.
Proof. symmetry. apply in_range_iff. Qed.
Lemma small_iff c : small c <-> is_lower c = true.
Proof. symmetry. apply in_range_iff. Qed.
Lemma word_char_iff c : word_char c <-> is_word c = true.
Proof.
  unfold word_char, is_word, is_alnum, is_alpha, is_upper, is_lower, is_digit. rewrite !orb_true_iff, !in_range_iff, Ascii.eqb_eq.
  assert (c = "_"%char <-> N_of_ascii c = 95%N) as ->; [|tauto].
  split; [now intros ->|]. intros H. rewrite <- (ascii_N_embedding c), H. reflexivity.
Qed.
Lemma Forall_forallb {A} (P : A -> Prop) f l : (forall x, P x <-> f x = true) -> Forall P l <-> forallb f l = true.
Proof. intros H. rewrite Forall_forall, forallb_forall. split; intros G x Hx; apply H; auto. Qed.
Lemma words_iff w : Forall word_char w <-> forallb is_word w = true.
Proof. apply Forall_forallb, word_char_iff. Qed.
Lemma word_end_hd s : word_end s -> hd_not is_word s.
Proof.
  intros H. destruct s as [|c s]; [exact I|]. cbn. apply not_true_is_false. intros E. apply (H c s eq_refl). now apply word_char_iff.
Qed.
(** A run of characters is determined by what ends it. *)
Lemma run_unique {A} (f : A -> bool) : forall a b x y s t, forallb f a = true -> forallb f b = true -> f x = false -> f y = false ->
  a ++ x :: s = b ++ y :: t -> a = b /\ x = y /\ s = t.
Proof.
  induction a as [|u a IH]; intros [|v b] x y s t Ha Hb Hx Hy E; cbn in *.
  - injection E as -> ->. auto.
  - injection E as -> ->. apply andb_true_iff in Hb as [Hb _]. congruence.
  - injection E as -> <-. apply andb_true_iff in Ha as [Ha _]. congruence.
  - injection E as -> E. apply andb_true_iff in Ha as [_ Ha]. apply andb_true_iff in Hb as [_ Hb].
    destruct (IH b x y s t Ha Hb Hx Hy E) as (-> & -> & ->). auto.
Qed.

(** ** Tags *)
Lemma fp_tag p g tag e c : blanks g -> word tag -> word_end e ->
  fp TAG_RE p ($"<--" ++ g ++ tag) e c (("tag"%string, tag) :: c).
Proof.
  intros Hg [Ht0 Ht] He. unfold TAG_RE. cbn [RSeqs]. apply blanks_iff in Hg. apply words_iff in Ht.
  apply fp_seq with (c1 := c); [apply (fp_lit p ($"<--"))|].
  apply fp_seq with (c1 := c).
  - apply fp_star_chr; [exact Hg|]. destruct tag as [|x tag]; [congruence|]. cbn in Ht |- *.
    apply andb_true_iff in Ht as [Hx _]. destruct (is_space x) eqn:E; [|reflexivity]. apply space_not_word in E. congruence.
  - apply fp_grp, fp_plus_chr; [exact Ht|exact Ht0|now apply word_end_hd].
Qed.
Lemma tagged_search body tag line : tagged body tag line -> exists x, re_search TAG_RE line = Some x /\ group_s x "tag" = tag.
Proof.
  intros (g & e & -> & Hb & Hg & Ht & He). unfold re_search.
  replace (body ++ text_of "<--" ++ g ++ tag ++ e) with (body ++ ($"<--" ++ g ++ tag) ++ e) by (now rewrite <- !app_assoc).
  rewrite (search_from_pre _ _ _ _ _ [("tag"%string, tag)]).
  - cbn [option_map snd]. eexists. split; reflexivity.
  - apply skips_first; [reflexivity|]. apply forallb_forall. intros c Hc. cbn. rewrite orb_false_r.
    destruct (Ascii.eqb_spec "<" c) as [<-|]; [contradiction|reflexivity].
  - now apply fp_tag.
Qed.
Lemma untagged_search line : ~ mentions "<--" line -> re_search TAG_RE line = None.
Proof.
  intros H. unfold re_search. destruct (search_from TAG_RE None line) as [[pre x]|] eqn:E; [|reflexivity].
  exfalso. apply H. apply search_sound in E as (s' & E & E' & D). destruct D as (p1 & s1 & c1 & D & _).
  apply (den_lit ($"<--")) in D as (D & _ & _). exists pre, s1. rewrite E. f_equal. congruence.
Qed.

(** ** Atoms *)
Lemma write_digits_all ds : forallb is_digit (write_digits ds) = true.
Proof. induction ds as [|d ds IH]; [reflexivity|]. cbn [write_digits map forallb]. unfold write_digits in IH. rewrite IH. now destruct d. Qed.
Lemma write_digits_hd f ds s : ds <> [] -> (forall c, is_digit c = true -> f c = false) -> hd_not f (write_digits ds ++ s).
Proof. destruct ds as [|d ds]; [congruence|]. intros _ H. cbn. apply H. now destruct d. Qed.

Definition nonword_start (s : str) : Prop := exists c t, s = c :: t /\ (is_space c = true \/ c = "["%char).
(** What may follow a name (after blanks) without being taken for its label. *)
Definition unlabelled_start (z : str) : Prop := exists c t, z = c :: t /\ is_space c = false /\ c <> "["%char.
Lemma digits_unlabelled ds u : ds <> [] -> unlabelled_start (write_digits ds ++ u).
Proof. destruct ds as [|d ds]; [congruence|]. intros _. eexists _, _. split; [reflexivity|]. split; destruct d; (reflexivity || discriminate). Qed.
Lemma fp_label p s z c : label s -> forall g, forallb is_space g = true -> g <> [] -> unlabelled_start z ->
  fp (ROpt (RSeqs [ws_star; RChar "["; RPlus (c_notof "]"); RChar "]"])) p s (g ++ z) c c.
Proof.
  intros [->|(g' & w & -> & Hg' & Hw & Hn)] g Hg Hg0 (z0 & zt & -> & Hz1 & Hz2).
  - apply fp_opt_none, nomatch_den. intros p' s' c' D. cbn [RSeqs] in D.
    destruct D as (p1 & s1 & c1 & D1 & p2 & s2 & c2 & D2 & _).
    apply (den_rep_chr true 0 None is_space) in D1 as (w & E & _ & _ & Hw & _ & _).
    destruct D2 as (x & -> & Hx & _). cbn in Hx. apply Ascii.eqb_eq in Hx. subst x.
    cbn [app] in E. apply (run_unique is_space) in E as (_ & E & _); auto.
  - apply blanks_iff in Hg'. apply fp_opt_some; [destruct g'; discriminate|]. cbn [RSeqs].
    replace (g' ++ "["%char :: w ++ ["]"%char]) with (g' ++ ["["%char] ++ w ++ ["]"%char]) by reflexivity.
    apply fp_seq with (c1 := c); [apply fp_star_chr; [exact Hg'|reflexivity]|].
    apply fp_seq with (c1 := c); [apply fp_char|]. apply fp_seq with (c1 := c); [|apply fp_char].
    apply fp_plus_chr; [|exact Hw|reflexivity]. apply forallb_forall. intros x Hx. cbn. rewrite orb_false_r.
    destruct (Ascii.eqb_spec x "]") as [->|]; [contradiction|]. destruct (Ascii.eqb_spec "]" x); [congruence|reflexivity].
Qed.
Lemma label_start s g u : label s -> forallb is_space g = true -> g <> [] -> nonword_start (s ++ g ++ u).
Proof.
  intros [->|(g' & w & -> & Hg' & _)] Hg Hg0.
  - destruct g as [|x g]; [congruence|]. exists x, (g ++ u). cbn in Hg. apply andb_true_iff in Hg as [Hx _]. auto.
  - apply blanks_iff in Hg'. destruct g' as [|x g']; cbn [app]; eexists _, _; (split; [reflexivity|auto]).
    cbn in Hg'. apply andb_true_iff in Hg' as [Hx _]. auto.
Qed.
Lemma nonword_hd f s : nonword_start s -> (forall c, is_space c = true -> f c = false) -> f "["%char = false -> hd_not f s.
Proof. intros (c & t & -> & [H| ->]) H1 H2; cbn; auto. Qed.
Lemma word_last_boundary p w s : w <> [] -> forallb is_word w = true -> nonword_start s -> word_boundary (pa p w) s = true.
Proof.
  intros Hw H (c & t & -> & Hc). rewrite pa_rev. destruct (rev w) as [|x r] eqn:E.
  { apply (f_equal (@rev ascii)) in E. rewrite rev_involutive in E. now subst w. }
  assert (Hx : is_word x = true).
  { rewrite forallb_forall in H. apply H. apply in_rev. rewrite E. now left. }
  unfold word_boundary. cbn [hd_error]. rewrite Hx. assert (is_word c = false) as ->; [|reflexivity].
  destruct Hc as [Hc| ->]; [now apply space_not_word|reflexivity].
Qed.
Lemma upper_word c : is_upper c = true -> is_word c = true.
Proof. revert c. apply ascii_imp. vm_compute. reflexivity. Qed.
Lemma lower_word c : is_lower c = true -> is_word c = true.
Proof. revert c. apply ascii_imp. vm_compute. reflexivity. Qed.
Lemma space_not_lower c : is_space c = true -> is_lower c = false.
Proof. revert c. apply ascii_imp_not. vm_compute. reflexivity. Qed.

(** The position after blanks, or the start of the line. *)
Lemma blank_boundary a c s : forallb is_space a = true -> is_word c = true -> word_boundary (pa None a) (c :: s) = true.
Proof.
  intros Ha Hc. unfold word_boundary. cbn [hd_error]. rewrite Hc. rewrite pa_rev. destruct (rev a) as [|x r] eqn:E; [reflexivity|].
  assert (is_space x = true) as Hx. { rewrite forallb_forall in Ha. apply Ha, in_rev. rewrite E. now left. }
  now rewrite (space_not_word _ Hx).
Qed.

(** The position before a name: no word character precedes. *)
Definition at_edge (p : option ascii) : Prop := forall c, p = Some c -> is_word c = false.
Lemma fp_atom_name_to p sp g z c : at_edge p -> species sp -> forallb is_space g = true -> g <> [] -> unlabelled_start z ->
  fp ATOM_NAME_RE p sp (g ++ z) c c.
Proof.
  intros Ha (s1 & s2 & s3 & -> & (x & r & -> & Hx & Hr & Hl) & H2 & H3) Hg Hg0 Hds. unfold ATOM_NAME_RE. cbn [RSeqs].
  apply capital_iff in Hx. assert (Hr' : forallb is_lower r = true) by (revert Hr; apply Forall_forallb, small_iff).
  pose proof (label_start s3 g z H3 Hg Hg0) as N3.
  assert (Hw : forallb is_word (x :: r) = true).
  { cbn. rewrite (upper_word _ Hx). apply forallb_forall. intros y Hy. apply lower_word. rewrite forallb_forall in Hr'. auto. }
  change ((x :: r) ++ s2 ++ s3) with ([] ++ (x :: r) ++ s2 ++ s3).
  apply fp_seq with (c1 := c).
  { apply fp_wordb. unfold word_boundary. cbn [app hd_error]. rewrite (upper_word _ Hx). destruct p as [q|]; [|reflexivity].
    now rewrite (Ha q eq_refl). }
  cbn [pa]. apply fp_seq with (c1 := c).
  { unfold SPECIES_RE. change (x :: r) with ([x] ++ r). apply fp_seq with (c1 := c); [now apply fp_chr|].
    apply fp_rep_chr; [exact Hr'|lia|]. right. rewrite <- app_assoc. destruct H2 as [->|(w & -> & _)]; [|reflexivity].
    cbn [app]. now apply nonword_hd; [|apply space_not_lower|]. }
  apply fp_seq with (c1 := c).
  { destruct H2 as [->|(w & -> & Hw0 & Hw1)].
    - apply fp_opt_none. apply nomatch_first; [reflexivity|]. cbn [app]. destruct N3 as (y & t & -> & Hy). cbn.
      rewrite orb_false_r. destruct (Ascii.eqb_spec ":" y) as [<-|]; [|reflexivity]. destruct Hy; discriminate.
    - apply fp_opt_some; [discriminate|]. change (":"%char :: w) with ([":"%char] ++ w).
      apply fp_seq with (c1 := c); [apply fp_char|]. apply words_iff in Hw1. apply fp_plus_chr; auto.
      now apply nonword_hd; [|apply space_not_word|]. }
  replace s3 with ([] ++ s3) at 1 by reflexivity.
  apply fp_seq with (c1 := c).
  { apply fp_wordb. destruct H2 as [->|(w & -> & Hw0 & Hw1)].
    - cbn [pa]. apply (word_last_boundary p (x :: r)); [discriminate|exact Hw|exact N3].
    - apply words_iff in Hw1. cbn [pa]. apply (word_last_boundary _ w); [exact Hw0|exact Hw1|exact N3]. }
  cbn [pa]. now apply fp_label.
Qed.
Lemma fp_atom_name_at p sp g ds u c : at_edge p -> species sp -> forallb is_space g = true -> g <> [] -> ds <> [] ->
  fp ATOM_NAME_RE p sp (g ++ write_digits ds ++ u) c c.
Proof. intros Hp Hs Hg Hg0 Hd. apply fp_atom_name_to; auto. now apply digits_unlabelled. Qed.
Lemma blank_edge a : forallb is_space a = true -> at_edge (pa None a).
Proof.
  intros Ha c E. rewrite pa_rev in E. destruct (rev a) as [|x r] eqn:Er; [discriminate|]. injection E as ->.
  apply space_not_word. rewrite forallb_forall in Ha. apply Ha, in_rev. rewrite Er. now left.
Qed.
Lemma fp_atom_name a sp g ds u c : forallb is_space a = true -> species sp -> forallb is_space g = true -> g <> [] -> ds <> [] ->
  fp ATOM_NAME_RE (pa None a) sp (g ++ write_digits ds ++ u) c c.
Proof. intros Ha. apply fp_atom_name_at. now apply blank_edge. Qed.

Definition atom_caps (sp : str) (ds : list digit) (tag : str) (x y z : num) : caps :=
  ("tag"%string, tag) :: row_caps FST_D [x; y; z] [("index"%string, write_digits ds); ("spec"%string, sp)].
Lemma atom_match l a sp g ds t b tag x y z :
  tagged (a ++ sp ++ g ++ write_digits ds ++ t ++ b) tag l ->
  blanks a -> species sp -> blanks g -> g <> [] -> ds <> [] -> columns [x; y; z] t -> blanks b -> b <> [] ->
  exists r, re_match ATOMIC_DATA_TAG l = Some r /\ m_caps r = atom_caps sp ds tag x y z.
Proof.
  intros (g1 & e & -> & _ & Hg1 & Ht & He) Ha Hsp Hg Hg0 Hds Hc Hb Hb0.
  apply blanks_iff in Ha, Hg. pose proof Hb as Hb'. apply blanks_iff in Hb'.
  replace ((a ++ sp ++ g ++ write_digits ds ++ t ++ b) ++ text_of "<--" ++ g1 ++ tag ++ e)
    with ((a ++ ((sp ++ g ++ write_digits ds) ++ t) ++ b ++ ($"<--" ++ g1 ++ tag)) ++ e) by (now rewrite <- !app_assoc).
  unfold re_match. rewrite (fp_match_at _ _ _ _ (atom_caps sp ds tag x y z)); [eexists; split; reflexivity|].
  assert (Hnt : token_end (b ++ ($"<--" ++ g1 ++ tag) ++ e)).
  { intros c u E. destruct b as [|v b]; [congruence|]. cbn in E. injection E as <- _. now inversion Hb. }
  unfold ATOMIC_DATA_TAG. cbn [RSeqs]. apply fp_seq with (c1 := []).
  { apply fp_star_chr; [exact Ha|]. destruct Hsp as (s1 & s2 & s3 & -> & (u & r & -> & Hu & _) & _). cbn.
    apply capital_iff, upper_word in Hu. destruct (is_space u) eqn:E; [|reflexivity]. apply space_not_word in E. congruence. }
  apply fp_seq with (c1 := row_caps FST_D [x; y; z] [("index"%string, write_digits ds); ("spec"%string, sp)]).
  { unfold ATOMIC_DATA_3VEC. apply fp_seq with (c1 := [("index"%string, write_digits ds); ("spec"%string, sp)]).
    - unfold ATOM_RE. cbn [RSeqs]. apply fp_seq with (c1 := [("spec"%string, sp)]).
      + apply fp_grp. rewrite <- app_assoc. now apply fp_atom_name.
      + apply fp_seq with (c1 := [("spec"%string, sp)]).
        * apply fp_plus_chr; [exact Hg|exact Hg0|]. apply write_digits_hd; [exact Hds|].
          intros c Hd. destruct (is_space c) eqn:E; [|reflexivity]. apply space_not_digit in E. congruence.
        * apply fp_grp, fp_plus_chr; [apply write_digits_all|destruct ds; [congruence|discriminate]|].
          pose proof (columns_hd _ _ _ Hc Hnt) as H. apply token_end_hd in H. revert H. rewrite <- !app_assoc.
          set (w := t ++ b ++ _). destruct w as [|v w]; cbn; [auto|]. intros H. apply negb_false_iff in H. now apply space_not_digit.
    - apply fp_labelled; [exact Hc|reflexivity|]. rewrite <- app_assoc. exact Hnt. }
  apply fp_seq with (c1 := row_caps FST_D [x; y; z] [("index"%string, write_digits ds); ("spec"%string, sp)]).
  { apply fp_star_chr; [exact Hb'|reflexivity]. }
  now apply fp_tag.
Qed.

Lemma row_no_atom body tag l : tagged body tag l -> (forall a c t, body = a ++ c :: t -> blanks a -> ~ capital c) ->
  re_match ATOMIC_DATA_TAG l = None.
Proof.
  intros (g & e & -> & _ & _ & _ & _) H. set (rest := g ++ tag ++ e).
  destruct (re_match ATOMIC_DATA_TAG _) as [mr|] eqn:E; [|reflexivity]. exfalso.
  unfold re_match, match_at in E. apply m_sound in E as (p' & s' & c' & D & _). unfold ATOMIC_DATA_TAG in D. cbn [RSeqs] in D.
  destruct D as (p1 & s1 & c1 & D1 & p2 & s2 & c2 & D2 & _).
  apply (den_rep_chr true 0 None is_space) in D1 as (w & E & _ & _ & Hw & _ & _).
  apply den_consumed in D2 as (v & -> & _ & Hv). destruct v as [|x v]; [discriminate|].
  assert (Hx : is_upper x = true).
  { cbn in Hv. rewrite ?orb_false_r, ?andb_false_r in Hv. destruct (is_upper x); [reflexivity|cbn in Hv; discriminate]. }
  clear Hv. cbn [app] in E. change (text_of "<--" ++ rest) with ("<"%char :: $"--" ++ rest) in E.
  assert (G : forall (body w : str), body ++ "<"%char :: $"--" ++ rest = w ++ x :: (v ++ s2) -> forallb is_space w = true ->
    exists u, body = w ++ x :: u).
  { clear -Hx. induction body as [|y body IH]; intros [|z w] E Hw; cbn in *.
    - injection E as <- _. discriminate.
    - injection E as <- _. discriminate.
    - injection E as -> _. eauto.
    - injection E as -> E. apply andb_true_iff in Hw as [_ Hw]. destruct (IH w E Hw) as (u & ->). eauto. }
  destruct (G body w E Hw) as (u & ->). eapply H; [reflexivity|now apply blanks_iff|now apply capital_iff].
Qed.

(** ** One line of a frame *)
Definition with_item (st : fstate) (it : item) : result fstate :=
  match it with
  | MTime n => Ok {| f_curr := dset key_eqb (f_curr st) (kstr "time") (fval n); f_ions := f_ions st |}
  | MRow tag ns => curr <- append_tag (f_curr st) tag (VList (map fval ns)) ;; Ok {| f_curr := curr; f_ions := f_ions st |}
  | MAtom sp i tag x y z =>
      let props := match dget key_eqb (f_ions st) (atom_key sp i) with Some p => p | None => [] end in
      Ok {| f_curr := f_curr st;
            f_ions := dset key_eqb (f_ions st) (atom_key sp i) (dset key_eqb props (KStr tag) (VTuple (map fval [x; y; z]))) |}
  end.
Lemma nonblank_in l c : In c l -> is_space c = false -> isempty (strip l) = false.
Proof.
  intros Hc H. apply not_true_is_false. intros E. apply strip_empty in E. apply blanks_iff in E. rewrite forallb_forall in E.
  specialize (E c Hc). congruence.
Qed.
Lemma dset_dset {V} (d : list (key * V)) k v w : dset key_eqb (dset key_eqb d k v) k w = dset key_eqb d k w.
Proof.
  induction d as [|[k0 v0] d IH]; cbn [dset].
  - now rewrite key_eqb_refl'.
  - destruct (key_eqb k0 k) eqn:E; cbn [dset]; rewrite E; [reflexivity|now rewrite IH].
Qed.
Lemma write_digits_num ds : write_digits ds = write_num {| n_sign := NoSign; n_int := ds; n_frac := None; n_exp := None |}.
Proof. unfold write_num. cbn. now rewrite app_nil_r. Qed.
Lemma py_int_digits ds : ds <> [] -> py_int (write_digits ds) = Ok (decimal ds).
Proof.
  intros H. rewrite write_digits_num, py_int_num; [reflexivity| |split; reflexivity].
  unfold num_wf. cbn. unfold frac_digits. cbn. rewrite app_nil_r. auto.
Qed.
Lemma frame_line_item l o : md_line l o -> forall st, frame_line st l = match o with Some it => with_item st it | None => Ok st end.
Proof.
  intros H st. unfold frame_line. destruct H as [l Hl|l n ns Hm Hn Hf|l body tag ns Ht _ Hn Hf Hb|l a sp g ds i t b tag x y z Ht _ Ha Hsp Hg Hg0 Hds Hi Hc Hf Hb Hb0].
  - apply strip_empty in Hl. now rewrite Hl.
  - assert (isempty (strip l) = false) as ->.
    { inversion Hn as [|s n' ns' t H1 H2 H3 H4]; subst. apply not_true_is_false. intros E. apply strip_empty in E.
      apply Forall_app in E as [_ E]. apply Forall_app in E as [E _]. apply num_ok_wf in H3. apply (write_num_ne n H3).
      destruct (write_num n) as [|c w] eqn:W; [reflexivity|exfalso]. pose proof (write_num_nospace n) as N. rewrite W in N.
      inversion E as [|? ? Eb _]; subst. cbn in N. apply andb_true_iff in N as [N _].
      assert (B : blanks [c]) by (constructor; auto). apply blanks_iff in B. cbn in B. rewrite andb_true_r in B. now rewrite B in N. }
    rewrite untagged_search by exact Hm. rewrite (get_numbers_line _ _ Hn). cbn [map nthE nth_error].
    unfold nthE. cbn [nth_error bind]. rewrite to_float; [reflexivity| |exact Hf].
    apply num_ok_wf. pose proof (number_line_ok _ _ Hn) as F. now inversion F.
  - destruct (tagged_search _ _ _ Ht) as (x & Ex & Eg). rewrite Ex, (row_no_atom _ _ _ Ht Hb), Eg.
    assert (isempty (strip l) = false) as ->.
    { destruct Ht as (g & e & -> & _). apply (nonblank_in _ "<"%char); [|reflexivity]. apply in_or_app. right. now left. }
    rewrite (get_numbers_line _ _ Hn). rewrite to_tuple_nums; [reflexivity| |exact Hf]. apply Forall_wf. eapply number_line_ok; eassumption.
  - destruct (tagged_search _ _ _ Ht) as (y0 & Ex & Eg). rewrite Ex.
    destruct (atom_match _ _ _ _ _ _ _ _ _ _ _ Ht Ha Hsp Hg Hg0 Hds Hc Hb Hb0) as (r & Er & Ec). rewrite Er.
    assert (isempty (strip l) = false) as ->.
    { destruct Ht as (g1 & e & -> & _). apply (nonblank_in _ "<"%char); [|reflexivity]. apply in_or_app. right. now left. }
    assert (G : group_s r "spec" = sp /\ group_s r "index" = write_digits ds /\ group_s r "tag" = tag /\
      map (group_s r) FST_D = map write_num [x; y; z]).
    { unfold group_s, FST_D. cbn [map]. rewrite Ec. repeat split; reflexivity. }
    destruct G as (G1 & G2 & G3 & G4). unfold atreg_match. rewrite G1, G2, G3, G4.
    rewrite py_int_digits, Hi by exact Hds. cbn [rmap bind].
    rewrite to_tuple_nums; [|apply Forall_wf, (columns_ok _ _ Hc)|exact Hf].
    cbn [bind with_item]. unfold dgetE. destruct (dget key_eqb (f_ions st) (atom_key sp i)) as [p|] eqn:E.
    + rewrite E. reflexivity.
    + rewrite (dget_dset key_eqb key_eqb_spec), key_eqb_refl'. cbn [bind]. now rewrite dset_dset.
Qed.
Lemma frame_fold ls its : md_lines ls its -> forall st, foldM frame_line ls st = foldM with_item its st.
Proof.
  induction 1 as [|l o ls its Hl _ IH]; intros st; cbn [foldM]; [reflexivity|]. rewrite (frame_line_item _ _ Hl).
  destruct o as [it|]; cbn [foldM bind]; [|apply IH]. destruct (with_item st it); cbn [bind]; [apply IH|reflexivity].
Qed.

(** ** The whole frame *)
Definition rows_val (its : list item) (tag : str) : option pyval :=
  match rows_of tag its with [] => None | rs => Some (VList (map (fun ns => VList (map fval ns)) rs)) end.
Definition curr_val (its : list item) (k : key) : option pyval :=
  match k with
  | KStr s => if str_eqb s ($"time") then option_map fval (last_time its) else rows_val its s
  | _ => None
  end.
Definition vec (v : num * num * num) : pyval := let '(x, y, z) := v in VTuple (map fval [x; y; z]).
Definition ion_val (its : list item) (sp : str) (i : Z) (k : key) : option pyval :=
  match k with KStr s => option_map vec (vector_of sp i s its) | _ => None end.
Definition st_ok (its : list item) (st : fstate) : Prop :=
  NoDup (map fst (f_curr st)) /\ (forall k, dget key_eqb (f_curr st) k = curr_val its k) /\
  NoDup (map fst (f_ions st)) /\
  (forall k p, dget key_eqb (f_ions st) k = Some p -> exists sp i, k = atom_key sp i /\ has_atom sp i its /\
     NoDup (map fst p) /\ forall k', dget key_eqb p k' = ion_val its sp i k') /\
  (forall sp i, has_atom sp i its -> dget key_eqb (f_ions st) (atom_key sp i) <> None).
Definition item_ok (it : item) : Prop :=
  match it with MTime _ => True | MRow t _ => tag_ok t | MAtom _ _ t _ _ _ => tag_ok t end.

Lemma last_time_snoc its it : last_time (its ++ [it]) = match it with MTime t => Some t | _ => last_time its end.
Proof. induction its as [|i its IH]; cbn; [now destruct it|]. rewrite IH. destruct it; reflexivity. Qed.
Lemma rows_of_snoc tag its it : rows_of tag (its ++ [it]) = rows_of tag its ++ rows_of tag [it].
Proof. unfold rows_of. apply flat_map_app. Qed.
Lemma vector_of_snoc sp i tag its it : vector_of sp i tag (its ++ [it]) =
  match it with
  | MAtom sp' i' tag' x y z => if same_atom sp i sp' i' then if text_dec tag' tag then Some (x, y, z) else vector_of sp i tag its
                               else vector_of sp i tag its
  | _ => vector_of sp i tag its end.
Proof.
  induction its as [|j its IH]; cbn.
  - destruct it; try reflexivity. 
  - rewrite IH. destruct it; try reflexivity. destruct (same_atom sp i sp0 i0); [|reflexivity]. destruct (text_dec tag0 tag); reflexivity.
Qed.
Lemma has_atom_snoc sp i its it : has_atom sp i (its ++ [it]) <->
  has_atom sp i its \/ match it with MAtom sp' i' _ _ _ _ => sp = sp' /\ i = i' | _ => False end.
Proof.
  unfold has_atom. split.
  - intros (t & x & y & z & H). apply in_app_or in H as [H|[->|[]]]; [left; eauto 6|right; auto].
  - intros [(t & x & y & z & H)|H].
    + exists t, x, y, z. apply in_or_app. auto.
    + destruct it; try contradiction. destruct H as [-> ->]. exists tag, x, y, z. apply in_or_app. right. now left.
Qed.
Lemma same_atom_iff sp i sp' i' : same_atom sp i sp' i' = true <-> sp = sp' /\ i = i'.
Proof.
  unfold same_atom. destruct (text_dec sp sp') as [->|N]; [|split; [discriminate|intros [-> _]; congruence]].
  rewrite Z.eqb_eq. tauto.
Qed.
Lemma str_eqb_text a b : str_eqb a b = if text_dec a b then true else false.
Proof. destruct (str_eqb_spec a b), (text_dec a b); congruence. Qed.
Lemma tag_ok_str tag : tag_ok tag -> str_eqb tag ($"ions") = false /\ str_eqb tag ($"time") = false.
Proof.
  intros H. split; destruct (str_eqb_spec tag ($"ions")), (str_eqb_spec tag ($"time")); try reflexivity; exfalso; apply H; subst; cbn; auto.
Qed.

Lemma with_item_ok its st it : st_ok its st -> item_ok it -> exists st', with_item st it = Ok st' /\ st_ok (its ++ [it]) st'.
Proof.
  intros (N1 & C & N2 & I1 & I2) Hit.
  assert (S1 : forall k, match it with MTime _ | MRow _ _ => True | _ => False end -> forall sp i, ion_val (its ++ [it]) sp i k = ion_val its sp i k).
  { intros k H sp i. unfold ion_val. destruct k; try reflexivity. rewrite vector_of_snoc. now destruct it. }
  destruct it as [t|tag ns|sp i tag x y z]; cbn [with_item].
  - eexists. split; [reflexivity|]. unfold st_ok. cbn [f_curr f_ions]. split; [now apply (dset_nodup _ key_eqb_spec)|]. split; [|split; [exact N2|split]].
    + intros k. rewrite (dget_dset key_eqb key_eqb_spec), C. destruct (key_eqb_spec (kstr "time") k) as [<-|Hk].
      * cbn. now rewrite last_time_snoc.
      * unfold curr_val. destruct k as [| | | |s|]; try reflexivity. destruct (str_eqb_spec s ($"time")) as [->|]; [now contradiction Hk|].
        unfold rows_val. rewrite rows_of_snoc. cbn. now rewrite app_nil_r.
    + intros k p E. destruct (I1 k p E) as (sp & i & -> & Ha & Np & G). exists sp, i. repeat split; auto.
      * apply has_atom_snoc. auto.
      * intros k'. now rewrite S1.
    + intros sp i Ha. apply has_atom_snoc in Ha as [Ha|[]]. auto.
  - destruct (tag_ok_str tag Hit) as [T1 T2]. unfold append_tag, append_to. rewrite T1, C. cbn [curr_val]. rewrite T2.
    assert (R : forall s, rows_of s (its ++ [MRow tag ns]) = rows_of s its ++ if text_dec tag s then [ns] else []).
    { intros s. rewrite rows_of_snoc. cbn. now rewrite app_nil_r. }
    set (new := VList (map (fun ns => VList (map fval ns)) (rows_of tag its ++ [ns]))).
    assert (E : bind (match rows_val its tag with
       | Some (VList l) => Ok (dset key_eqb (f_curr st) (KStr tag) (VList (l ++ [VList (map fval ns)])))
       | Some _ => Err AttributeError
       | None => Ok (dset key_eqb (f_curr st) (KStr tag) (VList [VList (map fval ns)])) end)
       (fun curr => Ok {| f_curr := curr; f_ions := f_ions st |}) =
       Ok {| f_curr := dset key_eqb (f_curr st) (KStr tag) new; f_ions := f_ions st |}).
    { unfold rows_val, new. destruct (rows_of tag its) as [|r rs]; [reflexivity|]. cbn [bind]. rewrite map_app. reflexivity. }
    rewrite E. eexists. split; [reflexivity|]. clear E. unfold st_ok. cbn [f_curr f_ions].
    split; [now apply (dset_nodup _ key_eqb_spec)|]. split; [|split; [exact N2|split]].
    + intros k. rewrite (dget_dset key_eqb key_eqb_spec), C. destruct (key_eqb_spec (KStr tag) k) as [<-|Hk].
      * cbn [curr_val]. rewrite T2. unfold rows_val. rewrite R. destruct (text_dec tag tag); [|congruence]. unfold new.
        now destruct (rows_of tag its).
      * unfold curr_val. destruct k as [| | | |s|]; try reflexivity. rewrite last_time_snoc. destruct (str_eqb s ($"time")); [reflexivity|].
        unfold rows_val. rewrite R. destruct (text_dec tag s); [congruence|]. now rewrite app_nil_r.
    + intros k p E. destruct (I1 k p E) as (sp & i & -> & Ha & Np & G). exists sp, i. repeat split; auto.
      * apply has_atom_snoc. auto.
      * intros k'. now rewrite S1.
    + intros sp i Ha. apply has_atom_snoc in Ha as [Ha|[]]. auto.
  - eexists. split; [reflexivity|]. unfold st_ok. cbn [f_curr f_ions]. split; [exact N1|]. split; [|split; [now apply (dset_nodup _ key_eqb_spec)|split]].
    + intros k. rewrite C. unfold curr_val. destruct k as [| | | |s|]; try reflexivity. rewrite last_time_snoc.
      destruct (str_eqb s ($"time")); [reflexivity|]. unfold rows_val. rewrite rows_of_snoc. cbn. now rewrite app_nil_r.
    + intros k p E. rewrite (dget_dset key_eqb key_eqb_spec) in E. destruct (key_eqb_spec (atom_key sp i) k) as [<-|Hk].
      * injection E as <-. exists sp, i. split; [reflexivity|]. split; [apply has_atom_snoc; auto|].
        assert (B : exists p0, match dget key_eqb (f_ions st) (atom_key sp i) with Some p => p | None => [] end = p0 /\
                   NoDup (map fst p0) /\ forall k', dget key_eqb p0 k' = ion_val its sp i k').
        { eexists. split; [reflexivity|]. destruct (dget key_eqb (f_ions st) (atom_key sp i)) as [p0|] eqn:E0.
          - destruct (I1 _ _ E0) as (sp' & i' & Ek & _ & Np & G). injection Ek as <- <-. auto.
          - split; [constructor|]. intros k'. cbn [dget]. unfold ion_val. destruct k' as [| | | |s|]; try reflexivity.
            destruct (vector_of sp i s its) as [v|] eqn:Ev; [|reflexivity]. exfalso. apply (I2 sp i); [|exact E0].
            clear -Ev. induction its as [|j its IH]; cbn in Ev; [discriminate|].
            destruct (vector_of sp i s its) as [w|] eqn:Ew.
            + destruct (IH Ev) as (t & x & y & z & H). exists t, x, y, z. now right.
            + destruct j as [| |sp' i' t' x y z]; try discriminate. destruct (same_atom sp i sp' i') eqn:Es; [|discriminate].
              apply same_atom_iff in Es as [<- <-]. exists t', x, y, z. now left. }
        destruct B as (p0 & -> & Np & G). split; [now apply (dset_nodup _ key_eqb_spec)|].
        intros k'. rewrite (dget_dset key_eqb key_eqb_spec), G. unfold ion_val.
        destruct (key_eqb_spec (KStr tag) k') as [<-|Hk'].
        -- rewrite vector_of_snoc. assert (same_atom sp i sp i = true) as -> by now apply same_atom_iff.
           destruct (text_dec tag tag); [reflexivity|congruence].
        -- destruct k' as [| | | |s|]; try reflexivity. rewrite vector_of_snoc. assert (same_atom sp i sp i = true) as -> by now apply same_atom_iff.
           destruct (text_dec tag s); [congruence|reflexivity].
      * destruct (I1 k p E) as (sp' & i' & -> & Ha & Np & G). exists sp', i'. repeat split; auto.
        -- apply has_atom_snoc. auto.
        -- intros k'. rewrite G. unfold ion_val. destruct k' as [| | | |s|]; try reflexivity. rewrite vector_of_snoc.
           destruct (same_atom sp' i' sp i) eqn:Es; [|reflexivity]. apply same_atom_iff in Es as [-> ->]. now contradiction Hk.
    + intros sp' i' Ha. rewrite (dget_dset key_eqb key_eqb_spec). destruct (key_eqb_spec (atom_key sp i) (atom_key sp' i')) as [Ek|Hk]; [discriminate|].
      apply has_atom_snoc in Ha as [Ha|[-> ->]]; [auto|congruence].
Qed.
Lemma frame_state its : Forall item_ok its -> exists st, foldM with_item its {| f_curr := []; f_ions := [] |} = Ok st /\ st_ok its st.
Proof.
  intros H.
  assert (G : forall its done st, Forall item_ok its -> st_ok done st -> exists st', foldM with_item its st = Ok st' /\ st_ok (done ++ its) st').
  { clear. induction its as [|it its IH]; intros done st H S; cbn [foldM].
    - rewrite app_nil_r. eauto.
    - inversion H; subst. destruct (with_item_ok done st it S) as (st1 & -> & S1); [assumption|]. cbn [bind].
      destruct (IH (done ++ [it]) st1) as (st2 & E & S2); auto. rewrite <- app_assoc in S2. eauto. }
  destruct (G its [] {| f_curr := []; f_ions := [] |} H) as (st & E & S); [|eauto].
  unfold st_ok. cbn. split; [constructor|]. split; [|split; [constructor|split]].
  - intros [| | | |s|]; try reflexivity. unfold curr_val, rows_val. now destruct (str_eqb s ($"time")).
  - discriminate.
  - intros sp i (t & x & y & z & []).
Qed.

(** ** Aliases *)
Lemma alias_keys : TAG_ALIASES = map (fun a => (KStr (text_of (fst a)), KStr (text_of (snd a)))) long_names.
Proof. reflexivity. Qed.
Fixpoint nodupb (l : list key) : bool := match l with [] => true | k :: l' => negb (existsb (key_eqb k) l') && nodupb l' end.
Lemma nodupb_ok l : nodupb l = true -> NoDup l.
Proof.
  induction l as [|k l IH]; intros H; [constructor|]. cbn in H. apply andb_true_iff in H as [H1 H2]. constructor; [|auto].
  intros C. apply negb_true_iff in H1. assert (existsb (key_eqb k) l = true); [|congruence].
  apply existsb_exists. exists k. split; [exact C|now apply key_eqb_eq].
Qed.
Lemma aliases_ok : NoDup (map fst TAG_ALIASES) /\ NoDup (map snd TAG_ALIASES) /\
  forall k, In k (map fst TAG_ALIASES) -> ~ In k (map snd TAG_ALIASES).
Proof.
  split; [apply nodupb_ok; vm_compute; reflexivity|]. split; [apply nodupb_ok; vm_compute; reflexivity|].
  assert (N : nodupb (map fst TAG_ALIASES ++ map snd TAG_ALIASES) = true) by (vm_compute; reflexivity).
  apply nodupb_ok in N. intros k H1 H2. apply in_split in H1 as (a & b & E). rewrite E, <- app_assoc in N.
  apply NoDup_remove_2 in N. apply N. apply in_or_app. right. apply in_or_app. auto.
Qed.
Lemma tag_aliases_ok d : NoDup (map fst d) -> exists out, tag_aliases d = Ok out /\ NoDup (map fst out) /\
  (forall k v, (forall s l, In (s, l) long_names -> k <> KStr (text_of l)) -> (entry out k v <-> entry d k v)) /\
  (forall s l v, In (s, l) long_names -> absent d (KStr (text_of l)) -> (entry out (KStr (text_of l)) v <-> entry d (KStr (text_of s)) v)).
Proof.
  intros N. destruct aliases_ok as (A1 & A2 & A3).
  destruct (alias_fold false d TAG_ALIASES d N A1 A2 A3 ltac:(reflexivity)) as (out & E1 & E2 & N' & B1 & B2 & B3).
  exists out. split; [|split; [exact N'|split]].
  - unfold tag_aliases, add_aliases. now rewrite E2.
  - intros k v H. rewrite !entry_dget by assumption. assert (I : In k (map fst TAG_ALIASES) \/ ~ In k (map fst TAG_ALIASES)).
    { rewrite <- memb_iff. destruct (memb k (map fst TAG_ALIASES)); [now left|right; discriminate]. }
    destruct I as [I|I].
    + now rewrite B2.
    + rewrite B3; [reflexivity|exact I|]. intros f Hf. exfalso. rewrite alias_keys in Hf. apply in_map_iff in Hf as ([s l] & Ef & Hin).
      injection Ef as _ Ef. cbn in Ef. now apply (H s l).
  - intros s l v Hin Ha. rewrite !entry_dget by assumption. apply absent_dget in Ha.
    assert (Hf : In (KStr (text_of s), KStr (text_of l)) TAG_ALIASES).
    { rewrite alias_keys. apply in_map_iff. exists (s, l). auto. }
    destruct (dget key_eqb d (KStr (text_of s))) as [w|] eqn:E.
    + rewrite (B1 _ _ _ Hf E). reflexivity.
    + split; [|discriminate]. rewrite B3.
      * now rewrite Ha.
      * intros C. apply (A3 _ C). apply (in_map snd) in Hf. exact Hf.
      * intros f Hf'. assert (f = KStr (text_of s)) as ->; [|exact E].
        clear -A2 Hf Hf'. induction TAG_ALIASES as [|[a b] al IH]; [contradiction|]. cbn in A2. inversion A2 as [|? ? H1 H2]; subst.
        destruct Hf as [Ea|Hf], Hf' as [Eb|Hf']; try congruence.
        -- injection Ea as _ ->. exfalso. apply H1. apply (in_map snd) in Hf'. exact Hf'.
        -- injection Eb as _ ->. exfalso. apply H1. apply (in_map snd) in Hf. exact Hf.
        -- auto.
Qed.

(** ** The frame theorem *)
Definition rows_v (rs : list (list num)) : pyval := VList (map (fun ns => VList (map fval ns)) rs).
Lemma not_long tag : tag_ok tag -> forall s l, In (s, l) long_names -> tag <> text_of l.
Proof.
  intros H s l Hin ->. apply H. right. right. rewrite map_map. apply in_map_iff. exists (s, l). auto.
Qed.
Lemma long_not_time s l : In (s, l) long_names -> str_eqb (text_of l) ($"time") = false /\ str_eqb (text_of s) ($"time") = false.
Proof. intros H. cbn in H. repeat (destruct H as [H|H]; [injection H as <- <-; split; reflexivity|]). contradiction. Qed.
Lemma rows_tag_ok its tag : Forall item_ok its -> rows_of tag its <> [] -> tag_ok tag.
Proof.
  intros H R. destruct (rows_of tag its) as [|r rs] eqn:E; [congruence|]. assert (In r (rows_of tag its)) as I by (rewrite E; now left).
  unfold rows_of in I. apply in_flat_map in I as (it & Hin & I). rewrite Forall_forall in H. specialize (H it Hin).
  destruct it; try contradiction. destruct (text_dec tag0 tag) as [->|]; [exact H|contradiction].
Qed.
Lemma vector_tag_ok its sp i tag v : Forall item_ok its -> vector_of sp i tag its = Some v -> tag_ok tag /\ has_atom sp i its.
Proof.
  induction its as [|it its IH]; intros H E; cbn in E; [discriminate|]. inversion H as [|? ? H1 H2]; subst.
  destruct (vector_of sp i tag its) as [w|].
  - destruct (IH H2 E) as [T (t & x & y & z & Hin)]. split; [exact T|]. exists t, x, y, z. now right.
  - destruct it as [| |sp' i' t x y z]; try discriminate. destruct (same_atom sp i sp' i') eqn:S; [|discriminate].
    destruct (text_dec t tag) as [->|]; [|discriminate]. apply same_atom_iff in S as [<- <-]. split; [exact H1|]. exists tag, x, y, z. now left.
Qed.
Lemma md_lines_ok ls its : md_lines ls its -> Forall item_ok its.
Proof.
  induction 1 as [|l o ls its Hl _ IH]; [constructor|]. destruct Hl; auto; constructor; auto; exact I.
Qed.
Lemma rows_val_some its s v : rows_val its s = Some v <-> rows_of s its <> [] /\ v = rows_v (rows_of s its).
Proof. unfold rows_val, rows_v. destruct (rows_of s its); split; try discriminate; [intros [[] _]; reflexivity|intros E|intros [_ ->]]; [|reflexivity]. injection E as <-. now split. Qed.

Theorem frame_exact ls its : md_lines ls its -> exists d ions,
  parse_md_geom_frame ls = Ok (VDict true ((kstr "ions", VDict false ions) :: d)) /\
  NoDup (kstr "ions" :: map fst d) /\ NoDup (map fst ions) /\
  (forall k v, entry d k v <-> exists s, k = KStr s /\ frame_has fval rows_v its s v) /\
  (forall k v, entry ions k v -> exists sp i p, k = KTuple [KStr sp; KInt i] /\ has_atom sp i its /\ v = VDict false p /\
     NoDup (map fst p) /\ forall k' w, entry p k' w <-> exists s, k' = KStr s /\ atom_has vec its sp i s w) /\
  (forall sp i, has_atom sp i its -> ~ absent ions (KTuple [KStr sp; KInt i])).
Proof.
  intros H. pose proof (md_lines_ok _ _ H) as Hit. destruct (frame_state its Hit) as (st & E & N1 & C & N2 & I1 & I2).
  unfold parse_md_geom_frame. rewrite (frame_fold _ _ H), E. cbn [bind]. unfold frame_end.
  destruct (tag_aliases_ok (f_curr st) N1) as (d & Ed & Nd & D1 & D2). rewrite Ed. cbn [bind].
  (* the keys of the dict before aliasing *)
  assert (K : forall k v, entry (f_curr st) k v <-> curr_val its k = Some v) by (intros; rewrite entry_dget, C by exact N1; reflexivity).
  assert (L : forall s l, In (s, l) long_names -> absent (f_curr st) (KStr (text_of l))).
  { intros s l Hin. apply absent_dget. rewrite C. cbn [curr_val]. destruct (long_not_time s l Hin) as [-> _].
    unfold rows_val. destruct (rows_of (text_of l) its) eqn:R; [reflexivity|exfalso].
    apply (not_long (text_of l)) with s l; auto. apply (rows_tag_ok its); [exact Hit|congruence]. }
  assert (M : forall l : list (key * dict), (forall k p, In (k, p) l -> NoDup (map fst p)) -> exists ions,
     mapM (fun kv => rmap (fun d => (fst kv, VDict false d)) (tag_aliases (snd kv))) l = Ok ions /\ map fst ions = map fst l /\
     forall k v, In (k, v) ions -> exists p out, In (k, p) l /\ v = VDict false out /\ tag_aliases p = Ok out).
  { clear. induction l as [|[k p] l IH]; intros H.
    - exists []. split; [reflexivity|]. split; [reflexivity|]. intros k v [].
    - destruct (tag_aliases_ok p (H k p (or_introl eq_refl))) as (out & Eo & _).
      destruct IH as (ions & Ei & Ek & El); [intros; eapply H; right; eassumption|].
      exists ((k, VDict false out) :: ions). cbn [mapM fst snd map]. unfold mapM in Ei |- *. cbn [fst snd]. rewrite Eo. cbn [rmap bind].
      rewrite Ei. split; [reflexivity|]. cbn. split; [now rewrite Ek|].
      intros k' v [Eq|Hin]; [injection Eq as <- <-; exists p, out; auto|]. destruct (El k' v Hin) as (p' & o' & ? & ? & ?). eauto 8. }
  destruct (M (f_ions st)) as (ions & Ei & Ek & El).
  { intros k p Hin. apply (entry_dget _ _ _ N2) in Hin. now destruct (I1 k p Hin) as (_ & _ & _ & _ & Np & _). }
  exists d, ions. rewrite Ei. split; [reflexivity|]. split; [|split; [now rewrite Ek|split; [|split]]].
  - constructor; [|exact Nd]. intros C'. apply in_map_iff in C' as ([k v] & Ek' & Hin). cbn in Ek'. subst k.
    assert (Hin' : entry (f_curr st) (kstr "ions") v).
    { apply D1; [|exact Hin]. intros s l Hl Eq. revert Hl. cbn. intros Hl.
      repeat (destruct Hl as [Hl|Hl]; [injection Hl as <- <-; discriminate|]). contradiction. }
    apply K in Hin'. cbn [curr_val kstr] in Hin'. replace (str_eqb ($"ions") ($"time")) with false in Hin' by reflexivity.
    apply rows_val_some in Hin' as [R _]. apply rows_tag_ok in R; [|exact Hit]. apply R. now left.
  - intros k v.
    assert (Lk : (exists s l, In (s, l) long_names /\ k = KStr (text_of l)) \/ (forall s l, In (s, l) long_names -> k <> KStr (text_of l))).
    { destruct (memb k (map (fun a => KStr (text_of (snd a))) long_names)) eqn:Mb.
      - apply memb_iff, in_map_iff in Mb as ([s l] & <- & Hin). left. exists s, l. auto.
      - right. intros s l Hin ->. apply not_true_iff_false in Mb. apply Mb, memb_iff, in_map_iff. exists (s, l). auto. }
    destruct Lk as [(s & l & Hin & ->)|Lk].
    + rewrite (D2 s l v Hin (L s l Hin)), K. cbn [curr_val]. destruct (long_not_time s l Hin) as [Tl Ts]. rewrite Ts, rows_val_some. split.
      * intros [R ->]. exists (text_of l). split; [reflexivity|]. now apply fh_long.
      * intros (s' & Es & Hf). injection Es as <-.
        remember (text_of l) as tl eqn:Etl. destruct Hf as [t Ht|tag R|s2 l2 Hin2 R].
        -- subst. discriminate.
        -- subst. exfalso. apply (not_long (text_of l)) with s l; auto. now apply (rows_tag_ok its).
        -- assert (s2 = s) as ->; [|auto].
           apply (f_equal string_of_list_ascii) in Etl. unfold text_of in Etl. rewrite !string_of_list_ascii_of_string in Etl. subst l2.
           clear -Hin Hin2. cbn in Hin, Hin2.
           repeat (destruct Hin as [Hin|Hin]; [injection Hin as <- <-; repeat (destruct Hin2 as [Hin2|Hin2]; [injection Hin2; congruence|]); contradiction|]). contradiction.
    + rewrite (D1 k v Lk), K. split.
      * intros Hc. destruct k as [| | | |s|]; try discriminate. exists s. split; [reflexivity|]. cbn [curr_val] in Hc.
        destruct (str_eqb_spec s ($"time")) as [->|Hs].
        -- destruct (last_time its) as [t|] eqn:Et; [|discriminate]. injection Hc as <-. now apply fh_time.
        -- apply rows_val_some in Hc as [R ->]. now apply fh_rows.
      * intros (s & -> & Hf). cbn [curr_val]. destruct Hf as [t Ht|tag R|s2 l2 Hin2 R].
        -- replace (str_eqb (text_of "time") ($"time")) with true by reflexivity. now rewrite Ht.
        -- destruct (tag_ok_str tag (rows_tag_ok _ _ Hit R)) as [_ ->]. now apply rows_val_some.
        -- exfalso. now apply (Lk s2 l2).
  - intros k v Hin. destruct (El k v Hin) as (p & out & Hp & -> & Ea). apply (entry_dget _ _ _ N2) in Hp.
    destruct (I1 k p Hp) as (sp & i & -> & Ha & Np & G). exists sp, i, out. split; [reflexivity|]. split; [exact Ha|]. split; [reflexivity|].
    destruct (tag_aliases_ok p Np) as (out' & Eo & No & O1 & O2). rewrite Ea in Eo. injection Eo as <-. split; [exact No|].
    assert (Kp : forall k v, entry p k v <-> ion_val its sp i k = Some v) by (intros; rewrite entry_dget, G by exact Np; reflexivity).
    assert (Lp : forall s l, In (s, l) long_names -> absent p (KStr (text_of l))).
    { intros s l Hl. apply absent_dget. rewrite G. cbn [ion_val]. destruct (vector_of sp i (text_of l) its) as [w|] eqn:V; [exfalso|reflexivity].
      apply (vector_tag_ok _ _ _ _ _ Hit) in V as [V _]. now apply (not_long (text_of l)) with s l. }
    intros k v.
    assert (Lk : (exists s l, In (s, l) long_names /\ k = KStr (text_of l)) \/ (forall s l, In (s, l) long_names -> k <> KStr (text_of l))).
    { destruct (memb k (map (fun a => KStr (text_of (snd a))) long_names)) eqn:Mb.
      - apply memb_iff, in_map_iff in Mb as ([s l] & <- & Hl). left. exists s, l. auto.
      - right. intros s l Hl ->. apply not_true_iff_false in Mb. apply Mb, memb_iff, in_map_iff. exists (s, l). auto. }
    destruct Lk as [(s & l & Hl & ->)|Lk].
    + rewrite (O2 s l v Hl (Lp s l Hl)), Kp. cbn [ion_val]. split.
      * destruct (vector_of sp i (text_of s) its) as [w|] eqn:V; [|discriminate]. intros Eq. injection Eq as <-.
        exists (text_of l). split; [reflexivity|]. now apply ah_long with s.
      * intros (s' & Es & Hf). injection Es as <-.
        remember (text_of l) as tl eqn:Etl. destruct Hf as [tag w V|s2 l2 w Hin2 V].
        -- subst. exfalso. apply (vector_tag_ok _ _ _ _ _ Hit) in V as [V _]. now apply (not_long (text_of l)) with s l.
        -- assert (s2 = s) as ->; [|now rewrite V].
           apply (f_equal string_of_list_ascii) in Etl. unfold text_of in Etl. rewrite !string_of_list_ascii_of_string in Etl. subst l2.
           clear -Hl Hin2. cbn in Hl, Hin2.
           repeat (destruct Hl as [Hl|Hl]; [injection Hl as <- <-; repeat (destruct Hin2 as [Hin2|Hin2]; [injection Hin2; congruence|]); contradiction|]). contradiction.
    + rewrite (O1 k v Lk), Kp. split.
      * intros Hc. destruct k as [| | | |s|]; try discriminate. exists s. split; [reflexivity|]. cbn in Hc.
        destruct (vector_of sp i s its) as [w|] eqn:V; [|discriminate]. injection Hc as <-. now apply ah_tag.
      * intros (s & -> & Hf). cbn [ion_val]. destruct Hf as [tag w V|s2 l2 w Hin2 V]; [now rewrite V|]. exfalso. now apply (Lk s2 l2).
  - intros sp i Ha Habs. apply (I2 sp i Ha). apply absent_dget. unfold absent in *. now rewrite <- Ek.
Qed.

(** ** atreg_to_index on a dictionary *)
Lemma atreg_to_index_spec d sp ds clear : NoDup (map fst d) -> In ($"spec", sp) d -> In ($"index", write_digits ds) d -> ds <> [] ->
  exists p, atreg_to_index d clear = Ok ((sp, decimal ds), filter p d) /\
  forall k v, In (k, v) d -> (p (k, v) = false <-> clear = true /\ (k = $"spec" \/ k = $"index")).
Proof.
  intros Hn Hs Hi Hd. exists (fun kv => negb clear || negb (str_eqb (fst kv) ($"spec")) && negb (str_eqb (fst kv) ($"index"))).
  split.
  - unfold atreg_to_index, dgetE. rewrite (dget_nodup _ str_eqb_spec _ _ _ Hn Hs), (dget_nodup _ str_eqb_spec _ _ _ Hn Hi).
    cbn [bind]. rewrite py_int_digits by exact Hd. cbn [bind]. f_equal. f_equal. destruct clear; cbn [negb orb].
    + rewrite (ddel_filter _ str_eqb_spec) by now apply ddel_nodup. rewrite (ddel_filter _ str_eqb_spec _ _ Hn).
      clear. induction d as [|[k v] d IH]; [reflexivity|]. cbn [filter fst]. destruct (str_eqb k ($"spec")); cbn [negb andb filter fst]; [exact IH|].
      destruct (str_eqb k ($"index")); cbn [negb]; [exact IH|]. now rewrite IH.
    + clear. induction d as [|kv d IH]; [reflexivity|]. cbn [filter]. now rewrite <- IH.
  - intros k v _. cbn [fst]. destruct clear; cbn [negb orb]; [|split; [discriminate|intros [H _]; discriminate]].
    destruct (str_eqb_spec k ($"spec")), (str_eqb_spec k ($"index")); cbn; split; try tauto; try discriminate; auto.
Qed.
