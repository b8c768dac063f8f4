(** Deciders used only to show that concrete files meet the hypotheses of the
    theorems (the Examples in the T_ files). *)
From Verif Require Import PyBase PyFacts PyVal Regex RegexFacts CastepRes NumSpec SpecLine NumFacts NumVal NumProps
  SpecTable SpecStr StrUtilFacts SpecText Stream StreamFacts TypeConv ColumnFacts TextParsersFacts SpecBands HeaderFacts BandsFacts.
Local Open Scope list_scope.
Local Open Scope nat_scope.

Definition digit_of (c : ascii) : digit :=
  match nat_of_ascii c - 48 with
  | 0 => d0 | 1 => d1 | 2 => d2 | 3 => d3 | 4 => d4 | 5 => d5 | 6 => d6 | 7 => d7 | 8 => d8 | _ => d9 end.
Definition read_sign (s : str) : sign * str :=
  match s with
  | c :: s' => if Ascii.eqb c "+" then (Plus, s') else if Ascii.eqb c "-" then (Minus, s') else (NoSign, s)
  | [] => (NoSign, [])
  end.
(** The number token written as the given text. *)
Definition rd_l (s : str) : num :=
  let (sg, s) := read_sign s in
  let i := take_while is_digit s in
  let s := drop_while is_digit s in
  let '(f, s) := match s with
    | c :: s' => if Ascii.eqb c "." then (Some (map digit_of (take_while is_digit s')), drop_while is_digit s') else (None, s)
    | [] => (None, []) end in
  {| n_sign := sg; n_int := map digit_of i; n_frac := f;
     n_exp := match s with
              | c :: s' => let (es, ed) := read_sign s' in Some (Ascii.eqb c "E", es, map digit_of ed)
              | [] => None end |}.
Definition rd (s : string) : num := rd_l ($s).

Definition wfb (n : num) : bool :=
  negb (isempty (n_int n ++ frac_digits n)) &&
  match n_frac n with None => negb (isempty (n_int n)) | Some _ => true end &&
  match n_exp n with Some (_, _, e) => negb (isempty e) | None => true end.
Definition okb (n : num) : bool := wfb n && match n_exp n with Some (_, _, e) => length e <=? 3 | None => true end.
Lemma ne_nil {A} (l : list A) : negb (isempty l) = true -> l <> [].
Proof. destruct l; [discriminate|intros _; discriminate]. Qed.
Lemma wf_of n : wfb n = true -> num_wf n.
Proof.
  unfold wfb, num_wf. intros H. apply andb_true_iff in H as [H H3]. apply andb_true_iff in H as [H1 H2]. split; [now apply ne_nil|]. split.
  - intros E. rewrite E in H2. now apply ne_nil.
  - destruct (n_exp n) as [[[? ?] e]|]; [now apply ne_nil|exact I].
Qed.
Lemma ok_of n : okb n = true -> num_ok n.
Proof.
  unfold okb. intros H. apply andb_true_iff in H as [H H4]. apply wf_of in H as (H1 & H2 & H3). split; [exact H1|]. split; [exact H2|].
  destruct (n_exp n) as [[[? ?] e]|]; [|exact I]. apply Nat.leb_le in H4. destruct e; [congruence|]. cbn in *. lia.
Qed.
Definition fitsb (n : num) : bool :=
  let q := Qred (num_value n) in negb (float_limit * Zpos (Qden q) <=? Z.abs (Qnum q))%Z.
Lemma fits_of n : fitsb n = true -> fits (num_value n).
Proof. unfold fitsb. intros H. apply fits_dec. now apply negb_true_iff. Qed.
Lemma forall_of {A} (P : A -> Prop) (f : A -> bool) l : (forall x, f x = true -> P x) -> forallb f l = true -> Forall P l.
Proof. intros H E. apply Forall_forall. intros x Hx. rewrite forallb_forall in E. auto. Qed.

Lemma cut_of ws s : split s = ws -> cut nonblank ws s.
Proof. intros <-. destruct (normalise_string_words s) as (ws & H & _). now rewrite (split_cut _ _ H). Qed.
Lemma trimmed_of l o : strip l = o -> trimmed l o.
Proof. intros <-. apply strip_trimmed. Qed.
Lemma mentions_of w l : contains ($w) l = true -> mentions w l.
Proof. apply mentions_iff. Qed.
Lemma not_mentions_of w l : contains ($w) l = false -> ~ mentions w l.
Proof. intros H C. apply mentions_iff in C. congruence. Qed.
Lemma blanks_of s : forallb is_space s = true -> blanks s.
Proof. apply blanks_iff. Qed.

Fixpoint columnsb (ns : list num) (t : str) : bool :=
  match ns with
  | [] => isempty t
  | n :: ns' => let g := take_while is_space t in
      negb (isempty g) && okb n &&
      match strip_prefix (write_num n) (drop_while is_space t) with Some t' => columnsb ns' t' | None => false end
  end.
Lemma columns_of ns : forall t, columnsb ns t = true -> columns ns t.
Proof.
  induction ns as [|n ns IH]; intros t H; cbn [columnsb] in H.
  - destruct t; [constructor|discriminate].
  - apply andb_true_iff in H as [H H3]. apply andb_true_iff in H as [H1 H2].
    destruct (strip_prefix _ _) as [t'|] eqn:E; [|discriminate]. apply strip_prefix_some in E.
    rewrite <- (take_drop_while is_space t), E. constructor; [|now apply ne_nil|now apply ok_of|now apply IH].
    apply blanks_iff. apply take_while_all.
Qed.
(** No three, four ... columns in a row. *)
Lemma no_cols_of k l : re_test (labelled_floats (repeat "v"%string k)) l = false -> ~ has_columns k l.
Proof. intros H. rewrite <- (repeat_length "v"%string k). now apply no_columns. Qed.
Lemma not_begins_of w l : startswith ($w) l = false -> ~ begins w l.
Proof. intros H C. apply begins_iff in C. congruence. Qed.
Lemma not_counting_of l : startswith ($"Number of") (strip l) = false -> ~ counting l.
Proof. intros H C. apply counting_iff in C. congruence. Qed.

Definition freeb (cs : string) (s : str) : bool := forallb (fun c => negb (chr_in c ($cs))) s.
Definition not_firstb (cs : string) (s : str) : bool := match s with c :: _ => negb (chr_in c ($cs)) | [] => true end.
Definition not_lastb (cs : string) (s : str) : bool := not_firstb cs (rev s).
Lemma chr_in_among cs c : among cs c <-> chr_in c ($cs) = true.
Proof.
  unfold among, chr_in. rewrite existsb_exists. split.
  - intros H. exists c. split; [exact H|]. apply Ascii.eqb_refl.
  - intros (x & H & E). apply Ascii.eqb_eq in E. now subst.
Qed.
Lemma free_of_b cs s : freeb cs s = true -> free_of cs s.
Proof.
  unfold freeb. intros H c Hc A. rewrite forallb_forall in H. specialize (H c Hc). apply chr_in_among in A. now rewrite A in H.
Qed.
Lemma not_first_b cs s : not_firstb cs s = true -> not_first cs s.
Proof. intros H c t -> A. cbn in H. apply chr_in_among in A. now rewrite A in H. Qed.
Lemma not_last_b cs s : not_lastb cs s = true -> not_last cs s.
Proof. unfold not_lastb. intros H t c -> A. rewrite rev_app_distr in H. cbn in H. apply chr_in_among in A. now rewrite A in H. Qed.
Fixpoint tailb (parts : list (str * num)) (e : str) : bool :=
  match parts with
  | [] => freeb "0123456789" e && not_firstb ".eE" e
  | (s, n) :: ps => freeb "0123456789" s && not_firstb ".eE" s && not_lastb "+-." s &&
      (negb (isempty s) || match n_sign n with NoSign => false | _ => true end) && okb n && tailb ps e
  end.
Definition glued (parts : list (str * num)) (e : str) : str := concat (map (fun x => fst x ++ write_num (snd x)) parts) ++ e.
Lemma tail_of parts e : tailb parts e = true -> tail (map snd parts) (glued parts e).
Proof.
  induction parts as [|[s n] ps IH]; cbn [tailb]; intros H; repeat (apply andb_true_iff in H as [H ?]).
  - cbn. constructor; [now apply free_of_b|now apply not_first_b].
  - unfold glued. cbn [map concat snd fst]. rewrite <- !app_assoc. constructor.
    + now apply free_of_b.
    + now apply not_first_b.
    + now apply not_last_b.
    + match goal with H : _ || _ = true |- _ => apply orb_true_iff in H as [H|H] end; [left; now apply ne_nil|right].
      destruct (n_sign n); discriminate.
    + now apply ok_of.
    + now apply IH.
Qed.
Lemma number_line_of s n ps e l : l = s ++ write_num n ++ glued ps e ->
  freeb "0123456789" s && not_lastb "+-." s && okb n && tailb ps e = true -> number_line (n :: map snd ps) l.
Proof.
  intros -> H. repeat (apply andb_true_iff in H as [H ?]). constructor;
    [now apply free_of_b|now apply not_last_b|now apply ok_of|now apply tail_of].
Qed.

(** Lines of an example file. *)
Definition ln (s : string) : str := $s ++ [newline].
Definition lns (l : list string) : list str := map ln l.
Arguments ln s%string_scope.
Arguments rd s%string_scope.
Ltac vmr := vm_compute; reflexivity.
