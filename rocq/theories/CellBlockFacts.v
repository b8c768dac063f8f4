(** Facts about the .cell parser: symmetry operations, constraints, general blocks. *)
From Coq Require Import QArith Qreduction.
From Verif Require Import PyBase PyFacts PyVal Regex RegexFacts RegexComplete CastepRes NumSpec NumFacts NumProps
  StrUtil SpecStr StrUtilFacts SpecLine SpecType TypeConv TypeConvFacts IntStr DictUtil SpecDict DictFacts Stream StreamFacts
  SpecTable ColumnFacts Header HeaderFacts MdFacts CellParam SpecCell CellFacts CellPosFacts.
Local Open Scope list_scope.
Local Open Scope nat_scope.

(** ** Rows of coordinates *)
Lemma float_rat_first x : is_space x = true -> first FLOAT_RAT_RE x = false.
Proof. revert x. ascii_dec. Qed.
Lemma skips_blanks p w s : forallb is_space w = true -> skips FLOAT_RAT_RE p w s.
Proof.
  intros H. apply skips_first; [reflexivity|]. apply forallb_forall. intros x Hx. rewrite forallb_forall in H. apply negb_true_iff, float_rat_first, H, Hx.
Qed.
Lemma iter_blanks fuel p b : forallb is_space b = true -> iter_from fuel FLOAT_RAT_RE p b = [].
Proof.
  intros H. destruct fuel as [|fuel]; [reflexivity|]. cbn [iter_from]. rewrite search_from_none; [reflexivity| |].
  - now apply skips_blanks.
  - apply nomatch_first; [reflexivity|exact I].
Qed.
Lemma iter_coord fuel p g x s : forallb is_space g = true -> prev_plain (pa p g) -> coord_ok x -> token_end s ->
  map (fun y => m_text (snd y)) (iter_from (S fuel) FLOAT_RAT_RE p (g ++ coord_text x ++ s)) =
  coord_text x :: map (fun y => m_text (snd y)) (iter_from fuel FLOAT_RAT_RE (pa (pa p g) (coord_text x)) s).
Proof.
  intros Hg Hp Hx Hs. cbn [iter_from]. rewrite (search_from_pre _ p g (coord_text x) s []).
  - cbn [map m_text snd m_prev m_rest]. pose proof (coord_nonempty x Hx). now destruct (coord_text x).
  - now apply skips_blanks.
  - now apply fp_coord.
Qed.
Lemma iter_coords xs t : coords xs t -> forall b fuel p, forallb is_space b = true -> length (t ++ b) < fuel ->
  map (fun y => m_text (snd y)) (iter_from fuel FLOAT_RAT_RE p (t ++ b)) = map coord_text xs.
Proof.
  induction 1 as [|g x xs t Hg Hg0 Hx Hc IH]; intros b fuel p Hb Hf.
  - cbn [app]. now rewrite iter_blanks.
  - apply blanks_iff in Hg. destruct fuel as [|fuel]; [lia|]. rewrite <- !app_assoc, iter_coord; auto.
    + cbn [map]. f_equal. apply IH; [exact Hb|]. rewrite !app_length in *. pose proof (coord_nonempty x Hx).
      destruct (coord_text x); [congruence|]. cbn in Hf. lia.
    + now apply prev_plain_space.
    + apply (coords_hd xs); [exact Hc|]. destruct b as [|y b]; intros z u E; [discriminate|]. injection E as <- _. cbn in Hb.
      apply andb_true_iff in Hb as [Hb _]. now apply blank_iff.
Qed.
Lemma findall_row xs t b : row xs t -> blanks b -> findall FLOAT_RAT_RE (t ++ b) = map coord_text xs.
Proof.
  intros (g & x & xs' & t' & -> & -> & Hg & Hx & Hc) Hb. apply blanks_iff in Hg, Hb. unfold findall, finditer. rewrite map_map.
  rewrite <- !app_assoc, iter_coord; auto.
  - cbn [map]. f_equal. apply iter_coords; [exact Hc|exact Hb|]. rewrite !app_length. pose proof (coord_nonempty x Hx).
    destruct (coord_text x); [congruence|]. cbn. lia.
  - destruct g as [|y g]; [exact I|]. now apply prev_plain_space.
  - apply (coords_hd xs'); [exact Hc|]. destruct b as [|y b]; intros z u E; [discriminate|]. injection E as <- _. cbn in Hb.
    apply andb_true_iff in Hb as [Hb _]. now apply blank_iff.
Qed.
Lemma row_ok xs t : row xs t -> Forall coord_ok xs /\ xs <> [].
Proof.
  intros (g & x & xs' & t' & -> & -> & Hg & Hx & Hc). split; [|discriminate]. constructor; [exact Hx|]. eapply coords_ok; eauto.
Qed.
Lemma write_digits_among d : d <> [] -> exists x r, write_digits d = x :: r /\ among "0123456789" x.
Proof.
  intros H. destruct d as [|a d]; [congruence|]. exists (digit_char a), (write_digits d). split; [reflexivity|]. destruct a; cbn; tauto.
Qed.
Lemma num_digit n : num_ok n -> exists x, In x (write_num n) /\ among "0123456789" x.
Proof.
  intros H. apply ok_wf in H. destruct H as [H _]. unfold write_num.
  destruct (n_int n) as [|a i] eqn:Ei.
  - destruct (n_frac n) as [f|] eqn:Ef; [|unfold frac_digits in H; rewrite Ef in H; cbn in H; congruence].
    unfold frac_digits in H. rewrite Ef in H. cbn in H. destruct (write_digits_among f H) as (x & r & E & Hx). exists x. split; [|exact Hx].
    rewrite !in_app_iff. right. right. left. rewrite E. right. now left.
  - destruct (write_digits_among (a :: i)) as (x & r & E & Hx); [discriminate|]. exists x. split; [|exact Hx]. rewrite !in_app_iff. right. left.
    rewrite E. now left.
Qed.
Lemma no_digit_nomatch p s c : free_of "0123456789" s -> nomatch FLOAT_RAT_RE p s c.
Proof.
  intros H. apply nomatch_den. intros p' s' c' D. unfold FLOAT_RAT_RE in D. cbn [RAlts den] in D. destruct D as [D|D].
  - unfold RATIONAL_RE in D. cbn [RSeqs] in D.
    destruct D as (p1 & s1 & c1 & (_ & _ & <- & _) & p2 & s2 & c2 & D2 & _). apply den_INT in D2 as (sg & d & Hd & -> & _).
    destruct (write_digits_among d Hd) as (x & r & E & Hx). apply (H x); [|exact Hx]. rewrite !in_app_iff, E. right. left. now left.
  - assert (N : den NUMBER_RE p s c p' s' c') by (unfold EXPFNUMBER_RE in D; cbn [NUMBER_RE RAlts den] in D |- *; tauto).
    apply den_NUMBER in N as (n & Hn & -> & _). destruct (num_digit n Hn) as (x & Hi & Hx). apply (H x); [|exact Hx]. apply in_app_iff. now left.
Qed.
Lemma no_digit_findall s : free_of "0123456789" s -> findall FLOAT_RAT_RE s = [].
Proof.
  intros H. unfold findall, finditer. cbn [iter_from]. rewrite search_from_none; [reflexivity| |].
  - assert (G : forall w p, free_of "0123456789" w -> skips FLOAT_RAT_RE p w []).
    { induction w as [|x w IH]; intros p Hw; [exact I|]. split; [rewrite app_nil_r; now apply no_digit_nomatch|].
      apply IH. intros y Hy. apply Hw. now right. }
    now apply G.
  - apply no_digit_nomatch. intros x [].
Qed.

(** ** Symmetry operations *)
Lemma symop_rows_ok ls xss e : rows ls xss -> free_of "0123456789" e ->
  CellParam.symop_rows (ls ++ [e]) = Ok (map row_value xss).
Proof.
  intros H He. unfold CellParam.symop_rows.
  assert (G : mapM (fun line => match findall FLOAT_RAT_RE line with [] => Ok [] | ns => v <- to_tuple TFloat ns ;; Ok [v] end) (ls ++ [e])
    = Ok (map (fun xs => [row_value xs]) xss ++ [[]])).
  { induction H as [|l xs b ls xss Hl Hb H IH].
    - cbn [mapM app map]. now rewrite no_digit_findall.
    - cbn [mapM app map]. rewrite (findall_row _ _ _ Hl Hb). destruct (row_ok _ _ Hl) as [Hok H0].
      destruct xs as [|x xs]; [congruence|]. cbn [map]. change (coord_text x :: map coord_text xs) with (map coord_text (x :: xs)).
      rewrite (coords_tuple _ Hok), IH. reflexivity. }
  rewrite G. cbn [rmap]. f_equal. rewrite concat_app. cbn. rewrite app_nil_r. clear. induction xss as [|xs xss IH]; cbn; [reflexivity|]. now rewrite IH.
Qed.
Lemma symops_grouped : forall ops fuel, 4 * length ops < fuel ->
  symops_of fuel (map row_value (flat_map SpecCell.symop_rows ops)) = Ok (map symop_value ops).
Proof.
  induction ops as [|o ops IH]; intros fuel Hf; [destruct fuel; [lia|reflexivity]|]. destruct fuel as [|fuel]; [lia|].
  change (flat_map SpecCell.symop_rows (o :: ops)) with ([so_x o; so_y o; so_z o; so_t o] ++ flat_map SpecCell.symop_rows ops).
  cbn [map app symops_of nthE nth_error bind skipn firstn]. rewrite IH by (cbn in Hf; lia). reflexivity.
Qed.
Lemma symops_block ls ops e : rows ls (flat_map SpecCell.symop_rows ops) -> free_of "0123456789" e ->
  parse_symops (ls ++ [e]) = Ok (VList (map symop_value ops)).
Proof.
  intros H He. unfold parse_symops. rewrite (symop_rows_ok _ _ _ H He). cbn [bind]. rewrite symops_grouped; [reflexivity|].
  rewrite map_length. induction ops as [|o ops IH]; [cbn; lia|]. clear. generalize (o :: ops) as l. induction l as [|o' l IH]; cbn in *; lia.
Qed.

(** ** Ionic constraints *)
Lemma pa_same p g : g <> [] -> pa p g = pa None g.
Proof. intros H. rewrite !pa_rev. destruct (rev g) eqn:E; [|reflexivity]. exfalso. apply H. rewrite <- (rev_involutive g), E. reflexivity. Qed.
Lemma blanks_end b : blanks b -> token_end b.
Proof. intros Hb. destruct b as [|y b]; intros z u E; [discriminate|]. injection E as <- _. now inversion Hb. Qed.
Lemma fp_ionic a g1 g2 t b x : blanks a -> blanks g1 -> g1 <> [] -> SpecMd.species (ic_spec x) -> blanks g2 -> g2 <> [] ->
  ic_index x <> [] -> columns (ic_vec x) t -> length (ic_vec x) = 3 -> blanks b ->
  fp IONIC_CONSTRAINTS_RE None (a ++ digit_char (ic_no x) :: g1 ++ ic_spec x ++ g2 ++ write_digits (ic_index x) ++ t) b []
    [("val"%string, t); ("index"%string, write_digits (ic_index x)); ("spec"%string, ic_spec x)].
Proof.
  intros Ha Hg1 Hg10 Hsp Hg2 Hg20 Hi Ht Hl Hb. apply blanks_iff in Ha, Hg1, Hg2. pose proof (blanks_end _ Hb) as Hbe.
  unfold IONIC_CONSTRAINTS_RE. cbn [RSeqs]. rewrite <- (app_nil_l (a ++ _)). apply fp_seq with (c1 := []); [apply fp_bol|].
  apply fp_seq with (c1 := []); [apply fp_star_chr; [exact Ha|]; cbn; now destruct (ic_no x)|].
  change (digit_char (ic_no x) :: ?u) with ([digit_char (ic_no x)] ++ u). apply fp_seq with (c1 := []); [apply fp_chr; now destruct (ic_no x)|].
  assert (Hsh : forall u, hd_not is_space (ic_spec x ++ u)).
  { intros u. destruct Hsp as (s1 & s2 & s3 & -> & (y & r & -> & Hy & _) & _). apply capital_iff in Hy. cbn. clear -Hy. revert y Hy. ascii_dec. }
  apply fp_seq with (c1 := []); [apply fp_plus_chr; [exact Hg1|exact Hg10|]; rewrite <- app_assoc; apply Hsh|].
  replace (ic_spec x ++ g2 ++ write_digits (ic_index x) ++ t) with ((ic_spec x ++ g2 ++ write_digits (ic_index x)) ++ t) by now rewrite <- !app_assoc.
  apply fp_seq with (c1 := [("index"%string, write_digits (ic_index x)); ("spec"%string, ic_spec x)]).
  - unfold ATOM_RE. cbn [RSeqs]. apply fp_seq with (c1 := [("spec"%string, ic_spec x)]).
    + apply fp_grp. rewrite pa_same by exact Hg10. rewrite <- app_assoc. now apply fp_atom_name.
    + apply fp_seq with (c1 := [("spec"%string, ic_spec x)]).
      * apply fp_plus_chr; [exact Hg2|exact Hg20|]. apply write_digits_hd; [exact Hi|]. ascii_dec.
      * apply fp_grp. apply fp_plus_chr; [apply write_digits_digits|destruct (ic_index x); [congruence|discriminate]|].
        assert (E : token_end (t ++ b)) by (apply (columns_hd (ic_vec x)); assumption). apply token_end_hd in E. destruct (t ++ b) as [|y u]; [exact I|].
        cbn in E |- *. apply negb_false_iff in E. clear -E. revert y E. ascii_dec.
  - unfold THREEVEC_RE, labelled_floats_gen. cbn [map RSeqs]. now apply (fp_counted "val" 3 (ic_vec x)).
Qed.
Definition constraint_vec (x : constraint) : pyval := VTuple (map float_of (ic_vec x)).
Lemma floats_tuple ns t : columns ns t -> Forall (fun n => fits (num_value n)) ns ->
  to_tuple TFloat (split t) = Ok (VTuple (map float_of ns)).
Proof.
  intros H Hf. replace (split t) with (map write_num ns).
  - unfold to_tuple. cbn [to_type]. rewrite map_map, (TypeConvFacts.mapM_map _ _ float_of); [reflexivity|].
    intros n Hn. rewrite Forall_forall in Hf. apply float_of_num; [|auto]. apply columns_ok in H. rewrite Forall_forall in H. apply ok_wf. auto.
  - pose proof (columns_cut _ _ [] H) as E. rewrite app_nil_r in E. symmetry. apply split_cut, E. constructor.
Qed.
Lemma constraint_step l x accum : constraint_line l x -> ionic_line accum l = stack_dict true accum [(constraint_key x, constraint_vec x)].
Proof.
  intros [a g1 g2 t b y Ha Hg1 Hg10 Hsp Hg2 Hg20 Hi Ht Hl Hf Hb].
  pose proof (fp_ionic a g1 g2 t b y Ha Hg1 Hg10 Hsp Hg2 Hg20 Hi Ht Hl Hb) as F. apply fp_match_at in F.
  unfold ionic_line, re_match. replace (a ++ digit_char (ic_no y) :: g1 ++ ic_spec y ++ g2 ++ write_digits (ic_index y) ++ t ++ b)
    with ((a ++ digit_char (ic_no y) :: g1 ++ ic_spec y ++ g2 ++ write_digits (ic_index y) ++ t) ++ b) by (rewrite <- !app_assoc; cbn; now rewrite <- !app_assoc).
  rewrite F. unfold atreg_match, group_s. cbn [m_caps].
  change (cap _ "spec") with (Some (ic_spec y)). change (cap _ "index") with (Some (write_digits (ic_index y))). change (cap _ "val") with (Some t).
  cbv beta iota. rewrite py_int_digits by exact Hi. cbn [rmap bind]. rewrite (floats_tuple _ _ Ht Hf). reflexivity.
Qed.

Lemma percent_line e : end_line e -> exists a r, forallb is_space a = true /\ e = a ++ "%"%char :: r.
Proof.
  intros (a & q & rest & Ha & Hq & ->). apply blanks_iff in Ha. destruct q as [|y q]; [discriminate|].
  unfold spells in Hq. change (lower (y :: q)) with (lower_c y :: lower q) in Hq. injection Hq as Hy _.
  assert (A : forall z, Ascii.eqb (lower_c z) "%" = true -> Ascii.eqb z "%" = true) by ascii_dec.
  assert (Ascii.eqb y "%" = true) as E by (apply A; now rewrite Hy). apply Ascii.eqb_eq in E. subst y. exists a, (q ++ rest). auto.
Qed.
(** Patterns that start with blanks and a character other than "%" do not match. *)
Lemma percent_nomatch r e c : end_line e -> nullable r = false -> first r "%" = false ->
  (forall x, is_space x = true -> first r x = false) -> nomatch (RSeq RBol (RSeq ws_star r)) None e c.
Proof.
  intros He Hn Hf Hs. apply percent_line in He as (a & t & Ha & ->). apply nomatch_den. intros p' s' c' D.
  destruct D as (p1 & s1 & c1 & (_ & _ & <- & _) & p2 & s2 & c2 & D2 & D3).
  apply den_rep_chr in D2 as (w & E & _ & _ & Hw & _). pose proof (den_consumed _ _ _ _ _ _ _ D3) as (u & -> & _ & Hu).
  destruct u as [|x u]; [congruence|]. apply class_split with (f := is_space) in E as [_ E]; [|exact Ha|exact Hw|reflexivity|].
  - injection E as <- _. congruence.
  - cbn. destruct (is_space x) eqn:Ex; [|reflexivity]. rewrite (Hs x Ex) in Hu. discriminate.
Qed.
Lemma constraint_end accum e : end_line e -> ionic_line accum e = Ok accum.
Proof.
  intros H. unfold ionic_line, re_match. rewrite nomatch_match_at; [reflexivity|]. unfold IONIC_CONSTRAINTS_RE. cbn [RSeqs].
  apply percent_nomatch; [exact H|reflexivity|reflexivity|]. ascii_dec.
Qed.
Lemma firsts_in l k : In k (firsts l) <-> In k l.
Proof.
  induction l as [|x l IH]; [reflexivity|]. cbn [firsts In]. rewrite filter_In, IH, negb_true_iff.
  destruct (key_eqb_spec k x) as [->|N]; [tauto|]. intuition congruence.
Qed.
Lemma firsts_nodup l : NoDup (firsts l).
Proof.
  induction l as [|x l IH]; [constructor|]. cbn [firsts]. constructor; [|now apply NoDup_filter].
  rewrite filter_In. intros [_ H]. apply negb_true_iff in H. destruct (key_eqb_spec x x); congruence.
Qed.
Lemma firsts_snoc l k : firsts (l ++ [k]) = if existsb (fun x => key_eqb x k) l then firsts l else firsts l ++ [k].
Proof.
  induction l as [|x l IH]; [reflexivity|]. cbn [app firsts existsb]. rewrite IH. destruct (key_eqb_spec x k) as [->|N]; cbn [orb].
  - destruct (existsb _ l); [reflexivity|]. rewrite filter_app. cbn. destruct (key_eqb_spec k k) as [_|]; [|congruence]. cbn. now rewrite app_nil_r.
  - destruct (existsb _ l); [reflexivity|]. rewrite filter_app. cbn. destruct (key_eqb_spec k x); [congruence|reflexivity].
Qed.
Lemma dget_map {V} (f : key -> V) l k : dget key_eqb (map (fun k => (k, f k)) l) k = if existsb (fun x => key_eqb x k) l then Some (f k) else None.
Proof.
  induction l as [|x l IH]; [reflexivity|]. cbn [map dget existsb]. destruct (key_eqb_spec x k) as [->|N]; [reflexivity|exact IH].
Qed.
Lemma dset_map {V} (f : key -> V) l k v : NoDup l -> In k l ->
  dset key_eqb (map (fun k => (k, f k)) l) k v = map (fun x => (x, if key_eqb x k then v else f x)) l.
Proof.
  induction 1 as [|x l Hx Hl IH]; [intros []|]. intros H. cbn [map dset]. destruct (key_eqb_spec x k) as [->|N].
  - f_equal. apply map_ext_in. intros y Hy. destruct (key_eqb_spec y k) as [->|]; [contradiction|reflexivity].
  - destruct H as [->|H]; [congruence|]. now rewrite IH.
Qed.
Lemma existsb_firsts l k : existsb (fun x => key_eqb x k) (firsts l) = existsb (fun x => key_eqb x k) l.
Proof.
  apply Bool.eq_true_iff_eq. rewrite !existsb_exists. split; intros (x & H & E); exists x; (split; [now apply firsts_in|exact E]).
Qed.
Lemma vectors_snoc k l x : vectors k (l ++ [x]) = vectors k l ++ (if key_eqb (constraint_key x) k then [constraint_vec x] else []).
Proof. unfold vectors. rewrite filter_app, map_app. cbn [filter]. now destruct (key_eqb (constraint_key x) k). Qed.
Lemma vectors_absent k l : existsb (fun x => key_eqb x k) (map constraint_key l) = false -> vectors k l = [].
Proof.
  unfold vectors. induction l as [|x l IH]; [reflexivity|]. cbn [map existsb filter]. destruct (key_eqb (constraint_key x) k); [discriminate|]. exact IH.
Qed.
Definition grouped (l : list constraint) : list (key * list pyval) := map (fun k => (k, vectors k l)) (firsts (map constraint_key l)).
Lemma stack_grouped l x : stack_dict true (grouped l) [(constraint_key x, constraint_vec x)] = Ok (grouped (l ++ [x])).
Proof.
  unfold stack_dict, grouped. cbn [foldM fst snd]. rewrite dget_map, existsb_firsts, map_app. cbn [map]. rewrite firsts_snoc.
  set (k := constraint_key x). destruct (existsb (fun x0 => key_eqb x0 k) (map constraint_key l)) eqn:E.
  - rewrite dset_map; [|apply firsts_nodup|].
    + cbn [bind]. f_equal. apply map_ext. intros y. rewrite vectors_snoc. fold k. destruct (key_eqb_spec y k) as [->|N].
      * destruct (key_eqb_spec k k); [reflexivity|congruence].
      * destruct (key_eqb_spec k y); [congruence|]. now rewrite app_nil_r.
    + apply firsts_in. apply existsb_exists in E as (y & Hy & E). destruct (key_eqb_spec y k) as [Ey|]; [rewrite <- Ey; exact Hy|discriminate].
  - rewrite dset_new; [|rewrite dget_map, existsb_firsts; fold k; rewrite E; reflexivity]. cbn [bind]. f_equal. rewrite map_app. cbn [map]. f_equal.
    + apply map_ext_in. intros y Hy. rewrite vectors_snoc. fold k. destruct (key_eqb_spec k y) as [->|N]; [|now rewrite app_nil_r].
      exfalso. apply (proj1 (firsts_in _ _)) in Hy. assert (X : existsb (fun x0 => key_eqb x0 y) (map constraint_key l) = true).
      { apply existsb_exists. exists y. split; [exact Hy|]. destruct (key_eqb_spec y y); congruence. }
      congruence.
    + rewrite vectors_snoc, (vectors_absent _ _ E). fold k. destruct (key_eqb_spec k k); [reflexivity|congruence].
Qed.
Lemma constraints_loop ls cs : Forall2 constraint_line ls cs -> forall done, foldM ionic_line ls (grouped done) = Ok (grouped (done ++ cs)).
Proof.
  induction 1 as [|l x ls cs Hl _ IH]; intros done; [cbn; now rewrite app_nil_r|].
  cbn [foldM]. rewrite (constraint_step _ _ _ Hl), stack_grouped. cbn [bind]. rewrite IH, <- app_assoc. reflexivity.
Qed.
Lemma constraints_block ls cs e : Forall2 constraint_line ls cs -> end_line e ->
  parse_ionic_constraints (ls ++ [e]) = Ok (VDict false (map (fun k => (k, VList (vectors k cs))) (firsts (map constraint_key cs)))).
Proof.
  intros H He. unfold parse_ionic_constraints. rewrite foldM_app. change (@nil (key * list pyval)) with (grouped []).
  rewrite (constraints_loop _ _ H). cbn [bind foldM app]. rewrite (constraint_end _ _ He). cbn [bind]. unfold grouped. now rewrite map_map.
Qed.

(** ** General blocks *)
Lemma free_uncomment l : free_of "#!" l -> uncomment l = l.
Proof.
  intros H. apply uncomment_code. right. split; [reflexivity|]. intros h m rest Hm ->.
  destruct Hm as [<-|[<-|[]]].
  - apply (H "#"%char); [rewrite !in_app_iff; right; left; now left|]. cbn; tauto.
  - apply (H "!"%char); [rewrite !in_app_iff; right; left; now left|]. cbn; tauto.
Qed.
Lemma free_app cs a b : free_of cs a -> free_of cs b -> free_of cs (a ++ b).
Proof. intros Ha Hb c Hc. apply in_app_iff in Hc as [Hc|Hc]; auto. Qed.
Lemma free_class cs (f : ascii -> bool) w : forallb (fun c => negb (f c)) ($cs) = true -> forallb f w = true -> free_of cs w.
Proof.
  intros H Hw c Hc Ha. rewrite forallb_forall in H, Hw. specialize (Hw c Hc). apply H in Ha. rewrite Hw in Ha. discriminate.
Qed.
Lemma free_blanks w : blanks w -> free_of "#!" w.
Proof. intros H. apply blanks_iff in H. now apply (free_class _ is_space). Qed.
Lemma free_less cs cs' w : (forall c, among cs' c -> among cs c) -> free_of cs w -> free_of cs' w.
Proof. intros H Hf c Hc Ha. exact (Hf c Hc (H c Ha)). Qed.
Lemma digits_mark c : among "#!" c -> among "0123456789#!" c.
Proof. unfold among. cbn. tauto. Qed.
Lemma digits_only c : among "0123456789" c -> among "0123456789#!" c.
Proof. unfold among. cbn. tauto. Qed.

Lemma spec_prop_den l : re_match_test SPEC_PROP_RE l = true ->
  exists w x u g rest, l = w ++ (x :: u) ++ g ++ rest /\ forallb is_space w = true /\ is_upper x = true /\ g <> [] /\ forallb is_space g = true.
Proof.
  intros H. apply match_test_iff in H; [|reflexivity]. destruct H as (p' & s' & c' & D). unfold SPEC_PROP_RE in D. cbn [RSeqs] in D.
  destruct D as (p1 & s1 & c1 & D1 & p2 & s2 & c2 & D2 & p3 & s3 & c3 & D3 & _).
  apply den_rep_chr in D1 as (w & -> & _ & _ & Hw & _). apply den_rep_chr in D3 as (g & -> & Hg0 & _ & Hg & _).
  pose proof (den_consumed _ _ _ _ _ _ _ D2) as (u & -> & _ & Hu). destruct u as [|x u]; [discriminate|].
  exists w, x, u, g, s3. repeat split; auto; [revert Hu; clear; revert x; ascii_dec|]. destruct g; [cbn in Hg0; lia|discriminate].
Qed.
Lemma coord_start x s : coord_ok x -> hd_not is_upper (coord_text x ++ s) /\ coord_text x ++ s <> [].
Proof.
  intros H. pose proof (coord_nonempty x H) as N. split; [|now destruct (coord_text x)]. destruct H as [_ H].
  assert (S : start_num (coord_text x ++ s) = true \/ hd_not is_upper (coord_text x ++ s)).
  { destruct x as [n|r]; cbn [coord_text] in *; [left; now apply num_start|right]. destruct H as ([H _] & Hs & _). unfold write_ratio. rewrite Hs.
    destruct (r_num r) as [|d ds]; [congruence|]. cbn. now destruct d. }
  destruct S as [S|S]; [|exact S]. destruct (coord_text x) as [|y t]; [congruence|]. cbn in S |- *.
  destruct (is_upper y) eqn:U; [|reflexivity]. exfalso. revert S. assert (is_sign y = false /\ is_digit y = false /\ Ascii.eqb y "." = false) as (-> & -> & E).
  { clear -U. repeat split; revert y U; ascii_dec. }
  try rewrite E. try (rewrite Ascii.eqb_sym in E; rewrite E). discriminate.
Qed.
Lemma row_no_prop xs t b : row xs t -> re_match_test SPEC_PROP_RE (t ++ b) = false.
Proof.
  intros (g & x & xs' & t' & -> & -> & Hg & Hx & Hc). apply blanks_iff in Hg.
  destruct (re_match_test SPEC_PROP_RE _) eqn:E; [|reflexivity]. exfalso.
  apply spec_prop_den in E as (w & y & u & g' & rest & E & Hw & Hy & _). rewrite <- !app_assoc in E.
  apply class_split with (f := is_space) in E as [_ E]; [|exact Hg|exact Hw|now apply coord_hd|].
  - destruct (coord_start x (t' ++ b) Hx) as [U _]. rewrite E in U. cbn in U. congruence.
  - cbn. clear -Hy. revert y Hy. ascii_dec.
Qed.
Lemma row_free xs t : row xs t -> free_of "#!" t.
Proof.
  assert (C : forall x, free_of "#!" (coord_text x)) by (intros x; apply (free_class _ is_coordchar); [reflexivity|apply coord_chars]).
  intros (g & x & xs' & t' & -> & -> & Hg & Hx & Hc). apply free_app; [now apply free_blanks|]. apply free_app; [apply C|].
  induction Hc as [|g' x' xs t Hg' _ _ _ IH]; [intros c []|]. apply free_app; [now apply free_blanks|]. apply free_app; [apply C|exact IH].
Qed.
Lemma general_row st l b xs units : row xs l -> blanks b ->
  general_line (GList st, units) (l ++ b) = Ok (GList (st ++ [row_value xs]), units).
Proof.
  intros H Hb. unfold general_line. rewrite free_uncomment by (apply free_app; [now apply (row_free xs)|now apply free_blanks]).
  rewrite (row_no_prop _ _ _ H), (findall_row _ _ _ H Hb). destruct (row_ok _ _ H) as [Hok H0].
  destruct xs as [|x xs]; [congruence|]. cbn [map]. change (coord_text x :: map coord_text xs) with (map coord_text (x :: xs)).
  rewrite (coords_tuple _ Hok). reflexivity.
Qed.
Lemma general_end st e : end_line e -> free_of "0123456789#!" e -> general_line st e = Ok st.
Proof.
  intros He Hf. unfold general_line. destruct st as [data units]. rewrite free_uncomment by (eapply free_less; [apply digits_mark|exact Hf]).
  replace (re_match_test SPEC_PROP_RE e) with false.
  - rewrite no_digit_findall by (eapply free_less; [apply digits_only|exact Hf]). now rewrite (proj2 (is_endblock_iff e) He).
  - symmetry. destruct (re_match_test SPEC_PROP_RE e) eqn:E; [|reflexivity]. exfalso.
    apply percent_line in He as (a & t & Ha & ->). apply spec_prop_den in E as (w & y & u & g' & rest & E & Hw & Hy & _).
    apply class_split with (f := is_space) in E as [_ E]; [|exact Ha|exact Hw|reflexivity|].
    + injection E as <- _. discriminate.
    + cbn. clear -Hy. revert y Hy. ascii_dec.
Qed.
Lemma general_unit data units a u : blanks a -> u <> [] -> (forall c, In c u -> ~ blank c) -> free_of "0123456789#!" u -> ~ end_line (a ++ u) ->
  general_line (data, units) (a ++ u) = Ok (data, Some u).
Proof.
  intros Ha Hu0 Hu Hf He. assert (F : free_of "0123456789#!" (a ++ u)).
  { apply free_app; [|exact Hf]. apply blanks_iff in Ha. now apply (free_class _ is_space). }
  unfold general_line. rewrite free_uncomment by (eapply free_less; [apply digits_mark|exact F]).
  apply blanks_iff in Ha.
  assert (Hu' : forallb (fun c => negb (is_space c)) u = true).
  { apply forallb_forall. intros c Hc. apply negb_true_iff. destruct (is_space c) eqn:E; [|reflexivity]. apply blank_iff in E. destruct (Hu c Hc E). }
  assert (Hh : hd_not is_space u).
  { destruct u as [|x u]; [exact I|]. cbn in Hu' |- *. apply andb_true_iff in Hu' as [Hx _]. now apply negb_true_iff. }
  replace (re_match_test SPEC_PROP_RE (a ++ u)) with false.
  - rewrite no_digit_findall by (eapply free_less; [apply digits_only|exact F]).
    destruct (is_endblock (a ++ u)) eqn:E; [apply is_endblock_iff in E; contradiction|].
    do 2 f_equal. unfold strip. rewrite <- (app_nil_r u) at 1. rewrite strip_by_core; auto.
    now apply last_not_forallb.
  - symmetry. destruct (re_match_test SPEC_PROP_RE (a ++ u)) eqn:E; [|reflexivity]. exfalso.
    apply spec_prop_den in E as (w & y & v & g' & rest & E & Hw & Hy & Hg0 & Hg).
    apply class_split with (f := is_space) in E as [_ E]; [|exact Ha|exact Hw|exact Hh|cbn; clear -Hy; revert y Hy; ascii_dec].
    subst u. destruct g' as [|z g']; [congruence|]. cbn in Hg. apply andb_true_iff in Hg as [Hz _].
    apply (Hu z); [apply in_app_iff; right; now left|]. now apply blank_iff.
Qed.
Lemma unit_lines_fold us u data : unit_lines us u -> foldM general_line us (data, None) = Ok (data, u).
Proof. intros [|a u' Ha H0 Hu Hf He]; [reflexivity|]. cbn [foldM]. now rewrite general_unit. Qed.
Lemma rows_fold ls xss : rows ls xss -> forall st units,
  foldM general_line ls (GList st, units) = Ok (GList (st ++ map row_value xss), units).
Proof.
  induction 1 as [|l xs b ls xss Hl Hb _ IH]; intros st units; [cbn; now rewrite app_nil_r|].
  cbn [foldM map]. rewrite (general_row _ _ _ _ _ Hl Hb). cbn [bind]. rewrite IH, <- app_assoc. reflexivity.
Qed.
Lemma rows_block us u ls xss e : unit_lines us u -> rows ls xss -> end_line e -> free_of "0123456789#!" e ->
  parse_general (us ++ ls ++ [e]) = Ok (with_units u (VList (map row_value xss))).
Proof.
  intros Hu Hl He Hf. unfold parse_general. rewrite !foldM_app, (unit_lines_fold _ _ _ Hu). cbn [bind].
  rewrite foldM_app, (rows_fold _ _ Hl). cbn [bind foldM]. rewrite (general_end _ _ He Hf). reflexivity.
Qed.

(** *** One value for each species *)
Definition is_namechar (c : ascii) : bool := is_word c || Ascii.eqb c ":".
Lemma labelled_chars s : labelled_species s -> exists x r, s = x :: r /\ is_upper x = true /\ forallb is_namechar s = true.
Proof.
  intros (w & l & -> & (x & t & -> & Hx & _ & Ht) & Hl). apply upper_iff in Hx. exists x, (t ++ l). split; [reflexivity|]. split; [exact Hx|].
  assert (U : forall y, is_upper y = true -> is_namechar y = true) by ascii_dec.
  assert (L : forall y, is_lower y = true -> is_namechar y = true) by ascii_dec.
  cbn [app forallb]. rewrite (U _ Hx). cbn [andb]. rewrite forallb_app. apply andb_true_iff. split.
  - apply forallb_forall. intros y Hy. now apply L, lower_iff, Ht.
  - destruct Hl as [->|(u & -> & _ & Hu)]; [reflexivity|]. cbn [forallb]. apply andb_true_iff. split; [reflexivity|].
    apply forallb_forall. intros y Hy. unfold is_namechar. rewrite (proj1 (word_char_iff y)); auto.
Qed.
Lemma boundary_blank p w s : w <> [] -> forallb is_word w = true -> (exists x r, s = x :: r /\ is_space x = true) -> word_boundary (pa p w) s = true.
Proof.
  intros H0 Hw (x & r & -> & Hx). apply word_last_boundary; [exact H0|exact Hw|]. exists x, r. auto.
Qed.
Lemma den_species w p s c : SpecCell.species w -> den SPECIES_RE p (w ++ s) c (pa p w) s c.
Proof.
  intros (x & t & -> & Hx & Hl & Ht). unfold SPECIES_RE. cbn [den]. exists (Some x), (t ++ s), c. split.
  - exists x. repeat split. now apply upper_iff.
  - exists (length t). split; [lia|]. split; [lia|]. cbn [pa]. assert (Ht' : forall y, In y t -> is_lower y = true) by (intros; now apply lower_iff, Ht).
    clear -Ht'. revert x. induction t as [|y t IH]; intros x; [cbn; auto|]. cbn [length iter_den app pa].
    exists (Some y), (t ++ s), c. split; [exists y; repeat split; apply Ht'; now left|]. apply IH. intros z Hz. apply Ht'. now right.
Qed.
Lemma species_word w : SpecCell.species w -> forallb is_word w = true /\ w <> [].
Proof.
  intros (x & t & -> & Hx & _ & Ht). split; [|discriminate]. cbn. apply upper_iff in Hx. rewrite (upper_word _ Hx). apply forallb_forall.
  intros y Hy. now apply lower_word, lower_iff, Ht.
Qed.
Lemma spec_prop_line a s g u : forallb is_space a = true -> labelled_species s -> forallb is_space g = true -> g <> [] -> hd_not is_space u ->
  re_match_test SPEC_PROP_RE (a ++ s ++ g ++ u) = true.
Proof.
  intros Ha Hs Hg Hg0 Hu. apply match_test_iff; [reflexivity|]. pose proof (labelled_chars s Hs) as (x & r & E & Hx & _).
  assert (Hgs : exists y q, g ++ u = y :: q /\ is_space y = true).
  { destruct g as [|y g]; [congruence|]. exists y, (g ++ u). cbn in Hg. apply andb_true_iff in Hg as [Hy _]. auto. }
  assert (D1 : den ws_star None (a ++ s ++ g ++ u) [] (pa None a) (s ++ g ++ u) []).
  { apply fp_den, fp_star_chr; [exact Ha|]. rewrite E. cbn. clear -Hx. revert x Hx. ascii_dec. }
  assert (D3 : den ws_plus (pa (pa None a) s) (g ++ u) [] (pa (pa (pa None a) s) g) u []) by (apply fp_den, fp_plus_chr; assumption).
  assert (B : word_boundary (pa None a) (s ++ g ++ u) = true).
  { rewrite E. apply blank_boundary; [exact Ha|now apply upper_word]. }
  assert (D2 : den ATOM_NAME_RE (pa None a) (s ++ g ++ u) [] (pa (pa None a) s) (g ++ u) []).
  { unfold ATOM_NAME_RE. cbn [RSeqs]. exists (pa None a), (s ++ g ++ u), []. split; [cbn; auto|].
    destruct Hs as (w & l & -> & Hw & Hl). destruct (species_word w Hw) as [Hww Hw0]. rewrite <- app_assoc. exists (pa (pa None a) w), (l ++ g ++ u), [].
    split; [now apply den_species|].
    assert (L : den (ROpt (RSeq (RChar ":") (RPlus c_word))) (pa (pa None a) w) (l ++ g ++ u) [] (pa (pa None a) (w ++ l)) (g ++ u) []
      /\ word_boundary (pa (pa None a) (w ++ l)) (g ++ u) = true).
    { destruct Hl as [->|(t & -> & Ht0 & Ht)].
      - rewrite app_nil_r. split; [exists 0; cbn; auto with arith|]. now apply boundary_blank.
      - assert (Htw : forallb is_word t = true) by (apply forallb_forall; intros y Hy; now apply word_char_iff, Ht).
        rewrite pa_app. change (":"%char :: t) with ([":"%char] ++ t). rewrite pa_app. split; [|now apply boundary_blank].
        rewrite <- (pa_app (pa (pa None a) w)), <- app_assoc.
        rewrite app_assoc. apply fp_den. apply fp_opt_some; [discriminate|]. apply fp_seq with (c1 := []); [apply fp_char|]. apply fp_plus_chr; [exact Htw|exact Ht0|].
        destruct Hgs as (y & q & -> & Hy). cbn. now apply space_not_word. }
    destruct L as [L1 L2]. exists (pa (pa None a) (w ++ l)), (g ++ u), []. split; [exact L1|].
    exists (pa (pa None a) (w ++ l)), (g ++ u), []. split; [cbn; auto|]. exists 0. cbn; auto with arith. }
  unfold SPEC_PROP_RE. cbn [RSeqs]. eexists _, u, _. eexists _, _, _. split; [exact D1|]. eexists _, _, _. split; [exact D2|].
  eexists _, _, _. split; [exact D3|]. eexists. split; [|reflexivity]. exists 0. cbn. auto with arith.
Qed.
Lemma single_auto t v : single_value t v -> auto_type t = Ok v.
Proof.
  unfold auto_type. intros [s v' Hs Hv|n v' Hn Hv].
  - pose proof (word_value s v' [] Hs Hv) as W. unfold keyword_value in W. change (cap [("str"%string, s)] "str") with (Some s) in W.
    cbv beta iota in W. now rewrite (strip_word s Hs) in W.
  - pose proof (numeric_value _ _ (num_one n v' Hn Hv)) as W.
    replace (chr_in " " (strip (write_num n))) with false in W; [exact W|]. symmetry.
    pose proof (strip_num_row n [] [] Hn cols_nil) as S. rewrite app_nil_r in S. rewrite S. apply chr_in_false. apply forallb_forall.
    intros x Hx. pose proof (write_num_numchars n) as C. rewrite forallb_forall in C. apply C in Hx. revert x Hx. ascii_dec.
Qed.
Lemma single_hd t v s : single_value t v -> hd_not is_space (t ++ s) /\ t <> [] /\ last_not is_space t.
Proof.
  intros [w v' Hs Hv|n v' Hn Hv].
  - pose proof (word_hd w Hs) as (x & r & E & Hx & _). split; [now subst w|]. split; [now subst w|]. apply last_not_blank. apply Hs.
  - pose proof (coord_chars (CNum n)) as C. cbn [coord_text] in C. pose proof (write_num_nonempty n Hn) as N. split.
    + destruct (write_num n) as [|y q]; [congruence|]. cbn in C |- *. apply andb_true_iff in C as [C _]. now apply coordchar_not_space.
    + split; [exact N|]. exact (coord_last (CNum n)).
Qed.
Lemma split1_two s g t : s <> [] -> forallb (fun c => negb (is_space c)) s = true -> forallb is_space g = true -> g <> [] -> hd_not is_space t -> t <> [] ->
  unpack_split1 (s ++ g ++ t) = Ok (s, t).
Proof.
  intros Hs0 Hs Hg Hg0 Ht Ht0. unfold unpack_split1, split1.
  assert (L : lstrip (s ++ g ++ t) = s ++ g ++ t).
  { unfold lstrip, lstrip_by. rewrite <- (app_nil_l (s ++ g ++ t)) at 1. apply drop_while_app; [reflexivity|]. destruct s as [|x s]; [congruence|].
    cbn in Hs |- *. apply andb_true_iff in Hs as [Hx _]. now apply negb_true_iff. }
  rewrite L. assert (H1 : hd_not (fun c => negb (is_space c)) (g ++ t)).
  { destruct g as [|x g]; [congruence|]. cbn in Hg |- *. apply andb_true_iff in Hg as [-> _]. reflexivity. }
  rewrite (take_while_app _ s (g ++ t) Hs H1), (drop_while_app _ s (g ++ t) Hs H1). unfold lstrip, lstrip_by. rewrite (drop_while_app _ g t Hg Ht).
  destruct s; [congruence|]. destruct t; [congruence|]. reflexivity.
Qed.
Lemma general_prop l k v data units : property_line l (k, v) ->
  general_line (data, units) l = Ok (GDict (dset key_eqb (match data with GList _ => [] | GDict d => d end) k v), units).
Proof.
  intros H. remember (k, v) as kv eqn:Ekv. destruct H as [a s g t v' b Ha Hs Hg Hg0 Ht Hf Hb]. injection Ekv as <- <-.
  pose proof (labelled_chars s Hs) as (x & r & E & Hx & Hc). unfold general_line.
  assert (Hsn : forallb (fun c => negb (is_space c)) s = true).
  { apply forallb_forall. intros y Hy. rewrite forallb_forall in Hc. apply Hc in Hy. revert y Hy. ascii_dec. }
  rewrite free_uncomment.
  2: { repeat apply free_app; try (now apply free_blanks); [|exact Hf]. now apply (free_class _ is_namechar). }
  pose proof (single_hd t v' b Ht) as (Hh & H0 & Hl). pose proof (single_hd t v' [] Ht) as (Hh' & _). rewrite app_nil_r in Hh'. apply blanks_iff in Ha, Hg, Hb.
  rewrite spec_prop_line by assumption.
  replace (strip (a ++ s ++ g ++ t ++ b)) with (s ++ g ++ t).
  - rewrite split1_two; auto; [|now subst s]. cbn [bind]. rewrite (single_auto _ _ Ht). reflexivity.
  - symmetry. unfold strip. replace (a ++ s ++ g ++ t ++ b) with (a ++ (s ++ g ++ t) ++ b) by now rewrite <- !app_assoc.
    apply strip_by_core; auto.
    + rewrite E. cbn. clear -Hx. revert x Hx. ascii_dec.
    + rewrite app_assoc. now apply last_not_app.
    + subst s. discriminate.
Qed.
Lemma props_fold ls its : Forall2 property_line ls its -> forall d units,
  foldM general_line ls (GDict d, units) = Ok (GDict (dupdate key_eqb d its), units).
Proof.
  induction 1 as [|l [k v] ls its Hl _ IH]; intros d units; [reflexivity|]. cbn [foldM]. rewrite (general_prop _ _ _ _ _ Hl). cbn [bind].
  rewrite IH. reflexivity.
Qed.
Lemma props_block us u ls its out e : unit_lines us u -> Forall2 property_line ls its -> ls <> [] -> merged its out ->
  end_line e -> free_of "0123456789#!" e -> parse_general (us ++ ls ++ [e]) = Ok (with_units u (VDict false out)).
Proof.
  intros Hu Hl H0 Hm He Hf. unfold parse_general. rewrite !foldM_app, (unit_lines_fold _ _ _ Hu). cbn [bind].
  apply (merged_fun key_eqb key_eqb_spec) in Hm. subst out.
  destruct Hl as [|l [k v] ls its Hl Hls]; [congruence|]. cbn [app foldM]. rewrite (general_prop _ _ _ _ _ Hl). cbn [bind].
  rewrite foldM_app, (props_fold _ _ Hls). cbn [bind foldM]. rewrite (general_end _ _ He Hf). reflexivity.
Qed.

(** ** All blocks *)
Lemma general_parser dc sp title : ~ In title (map list_ascii_of_string own_format) -> block_parser dc sp title = parse_general.
Proof.
  intros H. unfold block_parser. rewrite (proj2 (dget_none str_eqb str_eqb_spec _ _)); [reflexivity|]. exact H.
Qed.
Theorem blocks_ok dc sp title clean v : block_means title clean v -> block_parser dc sp title clean = Ok v.
Proof.
  intros [w ls e atoms Hw Hl He|u l ls e atoms Hu Hl He|l ls e atoms Hl He|ls e ops Hl He Hf|ls e cs Hl He|t us u ls xss e Ht Hu Hl He Hf|t us u ls its out e Ht Hu Hl H0 Hm He Hf].
  - repeat (destruct Hw as [<-|Hw]; [exact (positions_frac _ _ _ Hl He)|]). destruct Hw.
  - exact (positions_abs _ _ _ _ _ Hu Hl He).
  - exact (positions_abs_default _ _ _ _ Hl He).
  - exact (symops_block _ _ _ Hl Hf).
  - exact (constraints_block _ _ _ Hl He).
  - rewrite general_parser by exact Ht. now apply rows_block.
  - rewrite general_parser by exact Ht. eapply props_block; eauto.
Qed.
Theorem cell_file_ok dc sp ls asg out : cell_lines ls asg -> merged asg out ->
  parse_cell_param_file dc sp ls = Ok (VList [VDict false out]).
Proof. apply cell_file. apply blocks_ok. Qed.

(** ** Lists that cannot be read *)
Lemma nonspace_split a w b : forallb is_space a = true -> forallb is_space b = true -> w <> [] ->
  forallb (fun c => negb (is_space c)) w = true -> split (a ++ w ++ b) = [w].
Proof.
  intros Ha Hb H0 Hw. rewrite split_ws_app by exact Ha. destruct b as [|x b].
  - rewrite app_nil_r. now apply split_word_end.
  - rewrite <- (app_nil_r (x :: b)), split_word_ws; [now rewrite split_nil|now split|exact Hb|discriminate].
Qed.
Lemma num_nonspace n : forallb (fun c => negb (is_space c)) (write_num n) = true.
Proof.
  apply forallb_forall. intros x Hx. pose proof (write_num_numchars n) as C. rewrite forallb_forall in C. apply C in Hx. revert x Hx. ascii_dec.
Qed.
Lemma wf_nonempty n : num_wf n -> write_num n <> [].
Proof.
  intros H E. destruct H as [H _]. rewrite write_num_split in E. apply app_eq_nil in E as [_ E]. apply app_eq_nil in E as [E _].
  unfold mant in E. unfold frac_digits in H. destruct (n_int n); [|discriminate]. destruct (n_frac n); cbn in E, H; [discriminate|congruence].
Qed.
Lemma int_chars n : is_int n -> forallb (fun c => is_sign c || is_digit c) (write_num n) = true.
Proof.
  intros [Hf He]. unfold write_num. rewrite Hf, He. rewrite !app_nil_r, forallb_app. apply andb_true_iff. split; [now destruct (n_sign n)|].
  apply forallb_forall. intros x Hx. pose proof (write_digits_digits (n_int n)) as W. rewrite forallb_forall in W. rewrite (W x Hx). apply orb_true_r.
Qed.
Lemma not_int_char n : ~ is_int n -> exists c, In c (write_num n) /\ is_sign c || is_digit c = false.
Proof.
  intros H. unfold write_num. destruct (n_frac n) as [f|] eqn:Ef.
  - exists "."%char. split; [|reflexivity]. rewrite !in_app_iff. right. right. left. now left.
  - destruct (n_exp n) as [[[up sg] e]|] eqn:Ee; [|exfalso; apply H; split; assumption].
    exists (if up then "E"%char else "e"%char). split; [|now destruct up]. rewrite !in_app_iff. right. right. right. destruct up; now left.
Qed.
Lemma not_int_rejected n : num_ok n -> ~ is_int n -> to_type TInt (VStr (write_num n)) = Err ValueError.
Proof.
  intros Hn Hi. apply int_else. intros z E. apply int_accepts in E as (a & n' & b & Ha & Hb & Hw & Hi' & E & _).
  apply blanks_iff in Ha, Hb.
  assert (S1 : split (write_num n) = [write_num n]).
  { rewrite <- (app_nil_r (write_num n)) at 1. apply (nonspace_split [] _ []); auto using num_nonspace. now apply write_num_nonempty. }
  assert (S2 : split (write_num n) = [write_num n']).
  { rewrite E. apply nonspace_split; auto using num_nonspace. now apply wf_nonempty. }
  rewrite S1 in S2. injection S2 as S2. destruct (not_int_char n Hi) as (c & Hc & Hx). rewrite S2 in Hc.
  pose proof (int_chars n' Hi') as C. rewrite forallb_forall in C. rewrite (C c Hc) in Hx. discriminate.
Qed.
Lemma mapM_rejects {A B} (f : A -> result B) e l : (forall x, In x l -> (exists y, f x = Ok y) \/ f x = Err e) ->
  Exists (fun x => f x = Err e) l -> mapM f l = Err e.
Proof.
  induction l as [|x l IH]; intros H E; [inversion E|]. cbn [mapM]. destruct (H x (or_introl eq_refl)) as [(y & Ey)|Ey]; rewrite Ey; [|reflexivity].
  cbn [bind]. inversion E as [? ? E'|? ? E']; subst.
  - congruence.
  - rewrite IH; auto. intros z Hz. apply H. now right.
Qed.
Lemma mapM_over {A B C} (g : A -> B) (f : B -> result C) l : mapM f (map g l) = mapM (fun x => f (g x)) l.
Proof. induction l as [|x l IH]; [reflexivity|]. cbn [map mapM]. now rewrite IH. Qed.
Lemma several_rejected n ns t ty : num_ok n -> columns ns t -> ns <> [] -> ty = TInt \/ ty = TFloat ->
  to_type ty (VStr (write_num n ++ t)) = Err ValueError.
Proof.
  intros Hn Hc H0 Hty. pose proof (split_cut _ _ (cut_row n ns t Hn Hc)) as S.
  assert (one : forall w, split (write_num n ++ t) <> [w]).
  { intros w E. rewrite S in E. cbn in E. injection E as _ E. destruct ns; [congruence|discriminate]. }
  assert (N : forall a n' b, blanks a -> blanks b -> num_wf n' -> write_num n ++ t <> a ++ write_num n' ++ b).
  { intros a n' b Ha Hb Hw E. apply blanks_iff in Ha, Hb. apply (one (write_num n')). rewrite E. apply nonspace_split; auto using num_nonspace.
    now apply wf_nonempty. }
  assert (R : forall a r b, blanks a -> blanks b -> ratio_ok r -> write_num n ++ t <> a ++ write_ratio r ++ b).
  { intros a r b Ha Hb Hr E. apply blanks_iff in Ha, Hb. apply (one (write_ratio r)). rewrite E.
    pose proof (coord_chars (CRatio r)) as C. cbn [coord_text] in C. apply nonspace_split; auto.
    - unfold write_ratio. destruct (write_sign (r_sign r)), (write_digits (r_num r)); discriminate.
    - apply forallb_forall. intros x Hx. rewrite forallb_forall in C. apply C in Hx. revert x Hx. ascii_dec. }
  destruct Hty as [->| ->].
  - apply int_else. intros z E. apply int_accepts in E as (a & n' & b & Ha & Hb & Hw & _ & E & _). exact (N _ _ _ Ha Hb Hw E).
  - apply float_rejects. split.
    + intros (q & D). inversion D as [a n' b Ha Hb Hw E|a r b Ha Hb Hr Hz E]; [exact (N _ _ _ Ha Hb Hw (eq_sym E))|exact (R _ _ _ Ha Hb Hr (eq_sym E))].
    + intros (a & r & b & Ha & Hb & Hr & _ & E). exact (R _ _ _ Ha Hb Hr E).
Qed.
Lemma row_not_sep n u : num_ok n -> hd_not is_sepchar (write_num n ++ u) /\ hd_not is_space (write_num n ++ u).
Proof.
  intros Hn. pose proof (write_num_numchars n) as C. pose proof (write_num_nonempty n Hn). destruct (write_num n) as [|y q]; [congruence|].
  cbn in C |- *. apply andb_true_iff in C as [C _]. clear -C. split; revert y C; ascii_dec.
Qed.
Theorem unreadable_line h curr : unreadable_code h -> keyword_line curr h = Err ValueError.
Proof.
  assert (G : forall a k sep n ns t b, blanks a -> key_name k -> separator sep -> num_ok n -> columns ns t -> blanks b ->
    keyword_value [("val"%string, write_num n ++ t); ("key"%string, k)] = Err ValueError ->
    keyword_line curr (a ++ k ++ sep ++ (write_num n ++ t) ++ b) = Err ValueError).
  { intros a k sep n ns t b Ha Hk Hsep Hn Hc Hb E. destruct (row_not_sep n (t ++ b) Hn) as [N1 N2].
    rewrite (keyword_line_gen a k sep (write_num n ++ t) b [("val"%string, write_num n ++ t); ("key"%string, k)] (Err ValueError)); auto.
    - now rewrite <- app_assoc.
    - now rewrite <- app_assoc.
    - apply fp_numeric; [exists n, ns, t; auto|now apply blanks_iff|now apply separator_prev|reflexivity]. }
  intros [a k sep n ns t b Ha Hk Hsep Hn Hi Hc Hsp Hex Hb|a k sep n ns t b Ha Hk Hsep Hn Hc H0 Hsp Hb]; rewrite (app_assoc (write_num n)); apply (G _ _ _ _ ns); auto.
  - unfold keyword_value. change (cap _ "str") with (@None str). change (cap _ "val") with (Some (write_num n ++ t)). cbv beta iota zeta.
    rewrite (strip_num_row n ns t Hn Hc). replace (chr_in " " (write_num n ++ t)) with true.
    2: { symmetry. apply existsb_exists. exists " "%char. split; [apply in_or_app; auto|reflexivity]. }
    rewrite (split_cut _ _ (cut_row n ns t Hn Hc)).
    pose proof (detect_num_end [] n t (Forall_nil _) (columns_end _ _ Hc) (ok_wf n Hn)) as D. cbn [app] in D. rewrite D.
    rewrite (int_type n) by exact Hi. unfold to_tuple. cbn [to_type]. rewrite map_map.
    assert (Hok : Forall num_ok (n :: ns)) by (constructor; [exact Hn|eapply columns_ok; eauto]).
    assert (M : mapM (fun x => to_type TInt (VStr (write_num x))) (n :: ns) = Err ValueError).
    { apply mapM_rejects.
      - intros x Hx. rewrite Forall_forall in Hok. specialize (Hok x Hx).
        destruct (n_frac x) eqn:Ef; [right; apply not_int_rejected; [exact Hok|]; intros [X _]; congruence|].
        destruct (n_exp x) eqn:Ee; [right; apply not_int_rejected; [exact Hok|]; intros [_ X]; congruence|].
        left. eexists. apply int_of_num; [now apply ok_wf|split; assumption].
      - apply Exists_cons_tl. apply Exists_exists in Hex as (x & Hx & Hix). apply Exists_exists. exists x. split; [exact Hx|].
        apply not_int_rejected; [|exact Hix]. rewrite Forall_forall in Hok. apply Hok. now right. }
    rewrite mapM_over. rewrite M. reflexivity.
  - unfold keyword_value. change (cap _ "str") with (@None str). change (cap _ "val") with (Some (write_num n ++ t)). cbv beta iota zeta.
    rewrite (strip_num_row n ns t Hn Hc). replace (chr_in " " (write_num n ++ t)) with false.
    2: { symmetry. apply not_true_is_false. intros E. apply existsb_exists in E as (x & Hx & E). apply Ascii.eqb_eq in E. subst x.
         apply in_app_iff in Hx as [Hx|Hx]; [|contradiction]. pose proof (num_nonspace n) as W. rewrite forallb_forall in W. apply W in Hx. discriminate. }
    pose proof (detect_num_end [] n t (Forall_nil _) (columns_end _ _ Hc) (ok_wf n Hn)) as D. cbn [app] in D. rewrite D.
    rewrite (several_rejected n ns t); auto. destruct (n_frac n), (n_exp n); auto.
Qed.
Theorem cell_file_unreadable dc sp ls asg raw h rest : cell_lines ls asg -> code_of raw h -> unreadable_code h ->
  parse_cell_param_file dc sp (ls ++ raw :: rest) = Err ValueError.
Proof.
  intros H Hc Hu. apply (cell_file_raises dc sp (blocks_ok dc sp) ls asg raw h rest); auto.
  - assert (X : exists a k r, h = a ++ k ++ r /\ blanks a /\ key_name k).
    { destruct Hu as [a k sep n ns t b|a k sep n ns t b]; eexists a, k, _; repeat split; auto; match goal with H : key_name _ |- _ => apply H end. }
    destruct X as (a & k & r & -> & Ha & Hk). destruct (re_test BLOCK_RE _) eqn:E; [|reflexivity]. exfalso.
    apply block_test in E as (a' & p & r' & Ha' & Hp & E). apply blanks_iff in Ha, Ha'. pose proof (key_chars _ Hk) as Kc. destruct Hk as [Hk0 _].
    destruct k as [|x k]; [congruence|]. destruct p as [|y p]; [discriminate|]. cbn in Kc. apply andb_true_iff in Kc as [Kc _].
    unfold spells in Hp. change (lower (y :: p)) with (lower_c y :: lower p) in Hp. injection Hp as Hy _.
    assert (Yp : Ascii.eqb y "%" = true).
    { assert (A : forall z, Ascii.eqb (lower_c z) "%" = true -> Ascii.eqb z "%" = true) by ascii_dec. apply A. now rewrite Hy. }
    apply Ascii.eqb_eq in Yp. subst y. apply class_split with (f := is_space) in E as [_ E]; [|exact Ha|exact Ha'| |reflexivity].
    + injection E as -> _. discriminate.
    + cbn. clear -Kc. revert x Kc. ascii_dec.
  - intros curr. now apply unreadable_line.
Qed.
Theorem cell_file_unclosed dc sp ls asg raw h title rest : cell_lines ls asg -> code_of raw h -> block_head h title ->
  Forall (fun l => ~ end_line l) rest -> parse_cell_param_file dc sp (ls ++ raw :: rest) = Err OSError.
Proof. apply cell_file_unended. apply blocks_ok. Qed.

(** ** Files of one block *)
Theorem one_block_ok dc sp ls title clean v : one_block ls title clean -> block_means title clean v ->
  parse_cell_param_file dc sp ls = Ok (VList [VDict false [(KStr title, v)]]).
Proof.
  intros (raw & h & body & e & t & -> & Hc & Hh & <- & Hn & He & Hs) Hm.
  apply (cell_file_ok dc sp _ [(KStr (lower t), v)]); [|apply (merged_dict_of key_eqb key_eqb_spec [(KStr (lower t), v)])].
  eapply cl_block; eauto. constructor.
Qed.

(** ** Used in examples *)
Lemma code_here raw : code_of raw (uncomment raw).
Proof. unfold uncomment, before_match. rewrite search_comment. apply before_match_spec. discriminate. Qed.
Lemma stripped_here ls :
  stripped (inline_drops [["#"%char]; ["!"%char]]) (inline_keeps [["#"%char]; ["!"%char]]) ls (strip_comments [$"#"; $"!"] true ls).
Proof. apply strip_inline_spec. discriminate. Qed.
Lemma end_line_test l : end_line l <-> re_test ENDBLOCK_RE l = true.
Proof. symmetry. apply endblock_test. Qed.
