(** Proofs about the names of atoms. *)
From Verif Require Import PyBase PyFacts PyVal IntStr Regex RegexFacts RegexComplete CastepRes DictUtil NumSpec SpecLine NumFacts NumVal NumProps
  SpecTable SpecStr StrUtilFacts Stream StreamFacts SpecMd MdFacts ColumnFacts TextParsersFacts SpecBands SpecCastep SpecLabels Labels.
Local Open Scope list_scope.
Local Open Scope nat_scope.

Definition tag_caps (ts : list (key * pyval)) : caps :=
  match ts with (_, VStr w) :: _ => [("tag"%string, w)] | _ => [] end.
Definition wordless (s : str) : Prop := forall c t, s = c :: t -> is_word c = false.
Lemma wordless_hd f s : wordless s -> (forall c, f c = true -> is_word c = true) -> hd_not f s.
Proof. intros H G. destruct s as [|c s]; [exact I|]. cbn. destruct (f c) eqn:E; [|reflexivity]. specialize (H c s eq_refl). rewrite (G c E) in H. discriminate. Qed.
Lemma wordless_boundary p w s : w <> [] -> forallb is_word w = true -> wordless s -> word_boundary (pa p w) s = true.
Proof.
  intros Hw H Hs. rewrite pa_rev. destruct (rev w) as [|x r] eqn:E.
  { apply (f_equal (@rev ascii)) in E. rewrite rev_involutive in E. now subst w. }
  assert (Hx : is_word x = true).
  { rewrite forallb_forall in H. apply H. apply in_rev. rewrite E. now left. }
  unfold word_boundary. rewrite Hx. destruct s as [|c s]; [reflexivity|]. cbn. now rewrite (Hs c s eq_refl).
Qed.

(** The symbol, the tag and the boundary *)
Lemma fp_symbol_tag s t ts z : symbol s -> tag_text t ts -> wordless z -> hd_not (Ascii.eqb ":") z ->
  fp (RSeqs [RGrp "species" SPECIES_RE; ROpt (RSeq (RChar ":") (RGrp "tag" (RPlus c_word))); RWordB]) None (s ++ t) z []
     (tag_caps ts ++ [("species"%string, s)]).
Proof.
  intros (x & r & -> & Hx & Hr & Hl) Ht Hz Hz'. apply capital_iff in Hx.
  assert (Hr' : forallb is_lower r = true) by (revert Hr; apply Forall_forallb, small_iff).
  assert (Hw : forallb is_word (x :: r) = true).
  { cbn. rewrite (upper_word _ Hx). apply forallb_forall. intros y Hy. apply lower_word. rewrite forallb_forall in Hr'. auto. }
  cbn [RSeqs]. apply fp_seq with (c1 := [("species"%string, x :: r)]).
  { apply fp_grp. unfold SPECIES_RE. change (x :: r) with ([x] ++ r). apply fp_seq with (c1 := []); [now apply fp_chr|].
    apply fp_rep_chr; [exact Hr'|lia|]. right. inversion Ht; subst; [|reflexivity]. cbn [app]. apply wordless_hd; [exact Hz|]. apply lower_word. }
  rewrite <- (app_nil_r t). apply fp_seq with (c1 := tag_caps ts ++ [("species"%string, x :: r)]).
  - inversion Ht; subst.
    + apply fp_opt_none. apply nomatch_first; [reflexivity|]. cbn [app]. destruct z as [|c z]; [reflexivity|]. cbn in Hz' |- *. rewrite orb_false_r. exact Hz'.
    + apply fp_opt_some; [discriminate|]. cbn [tag_caps app]. change (":"%char :: w) with ([":"%char] ++ w).
      destruct H as [Hw0 Hw1]. apply words_iff in Hw1.
      apply fp_seq with (c1 := [("species"%string, x :: r)]); [apply fp_char|]. apply fp_grp, fp_plus_chr; auto.
      cbn [app]. apply wordless_hd; auto.
  - apply fp_wordb. cbn [app]. inversion Ht; subst; cbn [pa].
    + apply (wordless_boundary None (x :: r)); [discriminate|exact Hw|exact Hz].
    + destruct H as [Hw0 Hw1]. apply words_iff in Hw1. apply (wordless_boundary _ w); auto.
Qed.
Lemma label_wordless l ls r : label_text l ls -> wordless (l ++ r) /\ hd_not (Ascii.eqb ":") (l ++ r).
Proof.
  assert (G : forall g u, blanks g -> wordless (g ++ "["%char :: u) /\ hd_not (Ascii.eqb ":") (g ++ "["%char :: u)).
  { intros g u Hg. apply blanks_iff in Hg. destruct g as [|c g]; cbn [app].
    - split; [intros c t E; injection E as <- _; reflexivity|reflexivity].
    - cbn in Hg. apply andb_true_iff in Hg as [Hc _]. split; [intros c' t E; injection E as <- _; now apply space_not_word|]. cbn.
      destruct (Ascii.eqb_spec ":" c) as [<-|]; [discriminate|reflexivity]. }
  intros [g Hg|g x y Hg Hx Hn Hy]; rewrite <- app_assoc; apply G; exact Hg.
Qed.
Definition label_caps (l : str) : caps := [("label"%string, l)].
Lemma notof_iff x : ~ In "]"%char x -> forallb (fun c => negb (chr_in c ($"]"))) x = true.
Proof.
  intros H. apply forallb_forall. intros c Hc. cbn. rewrite orb_false_r. destruct (Ascii.eqb_spec c "]") as [->|]; [contradiction|reflexivity].
Qed.
Lemma fp_label_grp p g x z c : blanks g -> ~ In "]"%char x ->
  fp (ROpt (RSeqs [ws_star; RChar "["; RGrp "label" (RStar (c_notof "]")); RChar "]"])) p (g ++ "["%char :: x ++ ["]"%char]) z c (("label"%string, x) :: c).
Proof.
  intros Hg Hx. apply blanks_iff in Hg. apply fp_opt_some; [destruct g; discriminate|]. cbn [RSeqs].
  replace (g ++ "["%char :: x ++ ["]"%char]) with (g ++ ["["%char] ++ x ++ ["]"%char]) by reflexivity.
  apply fp_seq with (c1 := c); [apply fp_star_chr; [exact Hg|reflexivity]|].
  apply fp_seq with (c1 := c); [apply fp_char|]. apply fp_seq with (c1 := ("label"%string, x) :: c); [|apply fp_char].
  apply fp_grp, fp_star_chr; [|reflexivity]. exact (notof_iff x Hx).
Qed.
Lemma no_label p r c : ~ In "["%char r -> nomatch (RSeqs [ws_star; RChar "["; RGrp "label" (RStar (c_notof "]")); RChar "]"]) p r c.
Proof.
  intros H. apply nomatch_den. intros p' s' c' D. cbn [RSeqs] in D.
  destruct D as (p1 & s1 & c1 & D1 & p2 & s2 & c2 & D2 & _).
  apply (den_rep_chr true 0 None is_space) in D1 as (w & E & _ & _ & Hw & _ & _).
  destruct D2 as (x & -> & Hx & _). cbn in Hx. apply Ascii.eqb_eq in Hx. subst x. apply H. rewrite E. apply in_or_app. right. now left.
Qed.

Lemma match_of t z caps : fp ATOM_NAME_GRP_RE None t z [] caps -> exists x, re_match ATOM_NAME_GRP_RE (t ++ z) = Some x /\ m_caps x = caps.
Proof. intros H. unfold re_match. rewrite (fp_match_at _ _ _ _ _ H). eexists. split; reflexivity. Qed.
Lemma seqs_split : ATOM_NAME_GRP_RE = RSeqs ([RGrp "species" SPECIES_RE; ROpt (RSeq (RChar ":") (RGrp "tag" (RPlus c_word))); RWordB] ++
  [ROpt (RSeqs [ws_star; RChar "["; RGrp "label" (RStar (c_notof "]")); RChar "]"])]).
Proof. reflexivity. Qed.

Lemma strip_symbol s : symbol s -> strip s = s.
Proof.
  intros (x & r & -> & Hx & Hr & _). destruct (strip_trimmed (x :: r)) as (a & b & E & Ha & Hb & _).
  assert (N : forall c, In c (x :: r) -> is_space c = false).
  { intros c [<-|Hc].
    - apply capital_iff in Hx. revert Hx. apply (ascii_imp_not is_upper is_space). vm_compute. reflexivity.
    - rewrite Forall_forall in Hr. specialize (Hr c Hc). apply small_iff in Hr. revert Hr. apply (ascii_imp_not is_lower is_space). vm_compute. reflexivity. }
  apply blanks_iff in Ha, Hb.
  assert (a = []) as ->. { destruct a as [|y a]; [reflexivity|]. cbn in Ha. apply andb_true_iff in Ha as [Hy _]. rewrite (N y) in Hy; [discriminate|]. rewrite E. now left. }
  assert (b = []) as ->. { destruct b as [|y b]; [reflexivity|]. cbn in Hb. apply andb_true_iff in Hb as [Hy _]. rewrite (N y) in Hy; [discriminate|]. rewrite E. apply in_or_app. right. apply in_or_app. right. now left. }
  cbn [app] in E. rewrite app_nil_r in E. congruence.
Qed.
Lemma strip_word w : word w -> strip w = w.
Proof.
  intros [_ Hw]. destruct (strip_trimmed w) as (a & b & E & Ha & Hb & _).
  assert (N : forall c, In c w -> is_space c = false).
  { intros c Hc. rewrite Forall_forall in Hw. specialize (Hw c Hc). apply word_char_iff in Hw. destruct (is_space c) eqn:Ec; [|reflexivity]. rewrite (space_not_word _ Ec) in Hw. discriminate. }
  apply blanks_iff in Ha, Hb.
  assert (a = []) as ->. { destruct a as [|y a]; [reflexivity|]. cbn in Ha. apply andb_true_iff in Ha as [Hy _]. rewrite (N y) in Hy; [discriminate|]. rewrite E. now left. }
  assert (b = []) as ->. { destruct b as [|y b]; [reflexivity|]. cbn in Hb. apply andb_true_iff in Hb as [Hy _]. rewrite (N y) in Hy; [discriminate|]. rewrite E. apply in_or_app. right. apply in_or_app. right. now left. }
  cbn [app] in E. rewrite app_nil_r in E. congruence.
Qed.

Lemma symbol_nonempty s : symbol s -> isempty s = false.
Proof. intros (x & r & -> & _). reflexivity. Qed.

Lemma labelled_parts s t l r ts ls : symbol s -> tag_text t ts -> label_text l ls ->
  get_atom_parts (s ++ t ++ l ++ r) = Ok ((name "species", VStr s) :: ts ++ ls).
Proof.
  intros Hs Ht Hl.
  assert (E : exists g x, l = g ++ "["%char :: x ++ ["]"%char] /\ blanks g /\ ~ In "]"%char x /\
    ls = atom_part (name "label", VStr x)).
  { destruct Hl as [g Hg|g x y Hg Hx Hn Hy].
    - exists g, []. split; [reflexivity|]. repeat split; auto.
    - exists g, x. repeat split; auto. unfold atom_part. cbn [snd fst]. destruct x as [|c x]; [congruence|]. cbn [isempty].
      now rewrite (trimmed_strip _ _ Hy). }
  pose proof (label_wordless l ls r Hl) as [N1 N2].
  destruct E as (g & x & -> & Hg & Hx & ->).
  destruct (match_of ((s ++ t) ++ (g ++ "["%char :: x ++ ["]"%char])) r (("label"%string, x) :: tag_caps ts ++ [("species"%string, s)])) as (m & Em & Ec).
  { rewrite seqs_split. apply fp_seqs_app with (c1 := tag_caps ts ++ [("species"%string, s)]); [discriminate|discriminate| |].
    - apply fp_symbol_tag; auto.
    - cbn [RSeqs]. now apply fp_label_grp. }
  replace (s ++ t ++ (g ++ "["%char :: x ++ ["]"%char]) ++ r) with (((s ++ t) ++ (g ++ "["%char :: x ++ ["]"%char])) ++ r) by (now rewrite <- !app_assoc).
  unfold get_atom_parts. rewrite Em. f_equal. unfold groupdict. rewrite Ec.
  change (group_names ATOM_NAME_GRP_RE) with ["species"; "tag"; "label"]%string.
  pose proof (symbol_nonempty s Hs) as He. pose proof (strip_symbol s Hs) as Hst.
  destruct Ht as [|w Hw].
  - change (concat (map atom_part [(name "species", VStr s); (name "tag", VNone); (name "label", VStr x)]) = (name "species", VStr s) :: [] ++ atom_part (name "label", VStr x)).
    cbn [map concat]. unfold atom_part at 1 2. cbn [snd fst]. rewrite He, Hst. cbn [app]. now rewrite app_nil_r.
  - change (concat (map atom_part [(name "species", VStr s); (name "tag", VStr w); (name "label", VStr x)]) = (name "species", VStr s) :: [(name "tag", VStr w)] ++ atom_part (name "label", VStr x)).
    cbn [map concat]. unfold atom_part at 1 2. cbn [snd fst]. rewrite He, Hst, (strip_word w Hw). destruct w as [|c w]; [now destruct Hw|]. cbn [isempty app]. now rewrite app_nil_r.
Qed.
Lemma plain_parts s t r ts : symbol s -> tag_text t ts -> apart r ->
  get_atom_parts (s ++ t ++ r) = Ok ((name "species", VStr s) :: ts).
Proof.
  intros Hs Ht [Hr1 Hr2].
  assert (N1 : wordless r).
  { intros c u E. destruct (Hr2 c u E) as [Hc _]. apply not_true_is_false. intros W. apply Hc. now apply word_char_iff. }
  assert (N2 : hd_not (Ascii.eqb ":") r).
  { destruct r as [|c u]; [exact I|]. cbn. destruct (Ascii.eqb_spec ":" c) as [<-|]; [|reflexivity]. destruct (Hr2 _ u eq_refl) as [_ Hc]. congruence. }
  destruct (match_of ((s ++ t) ++ []) r (tag_caps ts ++ [("species"%string, s)])) as (m & Em & Ec).
  { rewrite seqs_split. apply fp_seqs_app with (c1 := tag_caps ts ++ [("species"%string, s)]); [discriminate|discriminate| |].
    - apply fp_symbol_tag; auto.
    - cbn [RSeqs]. apply fp_opt_none. now apply no_label. }
  rewrite app_nil_r, <- app_assoc in Em.
  unfold get_atom_parts. rewrite Em. f_equal. unfold groupdict. rewrite Ec.
  change (group_names ATOM_NAME_GRP_RE) with ["species"; "tag"; "label"]%string.
  pose proof (symbol_nonempty s Hs) as He. pose proof (strip_symbol s Hs) as Hst.
  destruct Ht as [|w Hw].
  - change (concat (map atom_part [(name "species", VStr s); (name "tag", VNone); (name "label", VNone)]) = [(name "species", VStr s)]).
    cbn [map concat]. unfold atom_part. cbn [snd fst]. now rewrite He, Hst.
  - change (concat (map atom_part [(name "species", VStr s); (name "tag", VStr w); (name "label", VNone)]) = [(name "species", VStr s); (name "tag", VStr w)]).
    cbn [map concat]. unfold atom_part. cbn [snd fst]. rewrite He, Hst, (strip_word w Hw). destruct w as [|c w]; [now destruct Hw|]. reflexivity.
Qed.
Theorem atom_parts_spec s d : atom_text s d -> get_atom_parts s = Ok d.
Proof. intros [s' t l r ts ls|s' t r ts]; intros; [now apply labelled_parts|now apply plain_parts]. Qed.

(** No symbol, no parts *)
Theorem atom_parts_none s : (forall c t, s = c :: t -> ~ capital c) -> get_atom_parts s = Err AttributeError.
Proof.
  intros H. unfold get_atom_parts, re_match. rewrite nomatch_match_at; [reflexivity|]. apply nomatch_first; [reflexivity|].
  destruct s as [|c s]; [reflexivity|]. destruct (is_upper c) eqn:E.
  - exfalso. apply (H c s eq_refl). now apply capital_iff.
  - cbn. unfold first, ATOM_NAME_GRP_RE. cbn. now rewrite E.
Qed.

(** There is never an index. *)
Lemma parts_keys s d k v : get_atom_parts s = Ok d -> In (k, v) d -> In k [name "species"; name "tag"; name "label"].
Proof.
  unfold get_atom_parts. destruct (re_match _ _) as [x|]; [|discriminate]. intros E H.
  assert (E' : d = concat (map atom_part (groupdict ATOM_NAME_GRP_RE x))) by congruence. rewrite E' in H. clear E E'.
  apply in_concat in H as (l & Hl & H). apply in_map_iff in Hl as (kv & <- & Hkv).
  unfold groupdict in Hkv. change (group_names ATOM_NAME_GRP_RE) with ["species"; "tag"; "label"]%string in Hkv.
  unfold atom_part in H. destruct (snd kv); try contradiction. destruct (isempty s0); [contradiction|].
  destruct H as [E|[]]. injection E as E _. rewrite E in Hkv || subst k. cbn in Hkv. cbn.
  destruct Hkv as [<-|[<-|[<-|[]]]]; auto.
Qed.
Theorem from_str_fails s : exists e, from_str s = Err e /\ (e = AttributeError \/ e = TypeError).
Proof.
  unfold from_str. destruct (get_atom_parts s) as [d|e] eqn:E.
  - cbn [bind]. unfold label_of. destruct (forallb _ d); [|eauto].
    assert (dget key_eqb d (kstr "index") = None) as N.
    { destruct (dget key_eqb d (kstr "index")) as [v|] eqn:G; [|reflexivity]. exfalso.
      apply (dget_in key_eqb key_eqb_spec) in G. apply (parts_keys s d _ _ E) in G. cbn in G. destruct G as [G|[G|[G|[]]]]; discriminate. }
    exists TypeError. split; [|auto]. unfold LABEL_FIELDS. cbn [mapM fst snd]. destruct (dget key_eqb d (kstr "species")); cbn [bind]; [|reflexivity].
    rewrite N. reflexivity.
  - exists e. split; [reflexivity|]. left. unfold get_atom_parts in E. destruct (re_match _ _); [discriminate|]. congruence.
Qed.

(** Labels of given fields *)
Lemma known_keys d : (forall k, In k (map fst d) -> In k (map name ["species"; "index"; "tag"; "label"]%string)) <->
  forallb (fun kv : key * pyval => existsb (fun f : string * option pyval => key_eqb (fst kv) (kstr (fst f))) LABEL_FIELDS) d = true.
Proof.
  rewrite forallb_forall. split.
  - intros H [k v] Hk. apply existsb_exists. apply (in_map (@fst key pyval)) in Hk. apply H in Hk. cbn in Hk. cbn [fst].
    destruct Hk as [<-|[<-|[<-|[<-|[]]]]]; [exists ("species"%string, None)|exists ("index"%string, None)|exists ("tag"%string, Some (VStr []))|exists ("label"%string, Some (VStr []))]; (split; [cbn; auto|reflexivity]).
  - intros H k Hk. apply in_map_iff in Hk as ([k' v] & <- & Hk). apply H in Hk. apply existsb_exists in Hk as (f & Hf & E).
    cbn [fst] in *. destruct (key_eqb_spec k' (kstr (fst f))) as [->|]; [|discriminate]. cbn in Hf.
    destruct Hf as [<-|[<-|[<-|[<-|[]]]]]; cbn; auto.
Qed.
Theorem label_spec d sp ix tg lb : NoDup (map fst d) ->
  (forall k, In k (map fst d) -> In k (map name ["species"; "index"; "tag"; "label"]%string)) ->
  given d "species" sp -> given d "index" ix -> given_or_empty d "tag" tg -> given_or_empty d "label" lb ->
  label_of d = Ok (VTuple [sp; ix; tg; lb]).
Proof.
  intros N K Hs Hi Ht Hl. apply known_keys in K. unfold label_of. rewrite K. unfold LABEL_FIELDS. cbn [mapM fst snd].
  change (kstr "species") with (name "species"). change (kstr "index") with (name "index").
  change (kstr "tag") with (name "tag"). change (kstr "label") with (name "label").
  rewrite (dget_nodup key_eqb key_eqb_spec d _ _ N Hs), (dget_nodup key_eqb key_eqb_spec d _ _ N Hi). cbn [bind].
  destruct Ht as [Ht|[Ht ->]]; [rewrite (dget_nodup key_eqb key_eqb_spec d _ _ N Ht)|apply (dget_none key_eqb key_eqb_spec) in Ht; rewrite Ht]; cbn [bind];
  (destruct Hl as [Hl|[Hl ->]]; [rewrite (dget_nodup key_eqb key_eqb_spec d _ _ N Hl)|apply (dget_none key_eqb key_eqb_spec) in Hl; rewrite Hl]); reflexivity.
Qed.
Theorem label_refused d :
  (exists k, In k (map fst d) /\ ~ In k (map name ["species"; "index"; "tag"; "label"]%string)) \/
    ~ In (name "species") (map fst d) \/ ~ In (name "index") (map fst d) ->
  label_of d = Err TypeError.
Proof.
  intros H. unfold label_of. destruct (forallb _ d) eqn:K; [|reflexivity].
  assert (G : ~ In (name "species") (map fst d) \/ ~ In (name "index") (map fst d)).
  { destruct H as [(k & Hk & Nk)|H]; [|exact H]. exfalso. apply Nk. exact (proj2 (known_keys d) K k Hk). }
  unfold LABEL_FIELDS. cbn [mapM fst snd].
  change (kstr "species") with (name "species"). change (kstr "index") with (name "index").
  destruct G as [G|G]; apply (dget_none key_eqb key_eqb_spec) in G; rewrite G; [reflexivity|].
  destruct (dget key_eqb d (name "species")); reflexivity.
Qed.
