(** More deciders for the Examples: the numbers on a line. *)
From Verif Require Import PyBase PyFacts PyVal Regex CastepRes NumSpec SpecLine SpecStr SpecTable SpecBands SpecCastep SpecCastep2
  StrUtil StrUtilFacts BandsFacts TextParsersFacts CastepFacts Castep2Facts ExampleTools.
Local Open Scope list_scope.
Local Open Scope nat_scope.

(** The numbers of a line with the text before each, and the text after the last. *)
Definition nl_found (l : str) : list (str * mres) := iter_from (S (length l)) NUMBER_RE None l.
Definition nl_parts (l : str) : list (str * num) := map (fun x => (fst x, rd_l (m_text (snd x)))) (nl_found l).
Definition nl_end (l : str) : str := match rev (nl_found l) with x :: _ => m_rest (snd x) | [] => l end.
Definition nlb (l : str) : bool :=
  match nl_parts l with
  | [] => freeb "0123456789" l
  | (s, n) :: ps => str_eqb l (s ++ write_num n ++ glued ps (nl_end l)) &&
      (freeb "0123456789" s && not_lastb "+-." s && okb n && tailb ps (nl_end l))
  end.
Lemma nl_of ns l : map snd (nl_parts l) = ns -> nlb l = true -> number_line ns l.
Proof.
  intros <-. unfold nlb. destruct (nl_parts l) as [|[s n] ps]; intros H.
  - constructor. now apply free_of_b.
  - apply andb_true_iff in H as [E H]. apply str_eqb_eq in E. cbn [map snd]. exact (number_line_of _ _ _ _ _ E H).
Qed.
Lemma nls_of ls nss : map (fun l => map snd (nl_parts l)) ls = nss -> forallb nlb ls = true -> Forall2 numbers_on ls nss.
Proof.
  intros <-. induction ls as [|l ls IH]; cbn [map forallb]; intros H; [constructor|]. apply andb_true_iff in H as [H1 H2].
  constructor; [now apply nl_of|now apply IH].
Qed.
Lemma key_named k nm : normalise_key k = nm -> key_name k nm.
Proof. intros <-. destruct (normalise_key_words k) as (ws & H & _ & E). now exists ws. Qed.
Lemma words_named s t : normalise_string s = t -> words_of s t.
Proof. intros <-. destruct (normalise_string_words s) as (ws & H & _ & E). now exists ws. Qed.
Lemma not_in_of c (l : str) : existsb (Ascii.eqb c) l = false -> ~ In c l.
Proof. intros H C. assert (X : existsb (Ascii.eqb c) l = true) by (apply existsb_exists; exists c; split; [exact C|apply Ascii.eqb_refl]). congruence. Qed.
Definition intb (n : num) : bool := match n_frac n, n_exp n with None, None => true | _, _ => false end.
Lemma int_of n : intb n = true -> is_int n.
Proof. unfold intb, is_int. destruct (n_frac n), (n_exp n); intuition discriminate. Qed.
Definition fitsb_all (ns : list num) : bool := forallb fitsb ns.
Lemma fit_of ns : fitsb_all ns = true -> all_fit ns.
Proof. apply forall_of. exact fits_of. Qed.
Lemma begins_b w l : startswith ($w) l = true -> begins w l.
Proof. apply begins_iff. Qed.
Lemma gap_b g : forallb is_space g && negb (isempty g) = true -> gap g.
Proof. intros H. apply andb_true_iff in H as [H1 H2]. split; [now apply blanks_of|now apply ne_nil]. Qed.
Lemma not_blank_b l : isempty (strip l) = false -> ~ blanks l.
Proof. intros H C. apply strip_empty in C. congruence. Qed.
Definition nums (l : list string) : list num := map rd l.
Arguments nums l%list_scope.
Lemma letter_b c : is_alpha c = true -> SpecCell.letter c.
Proof.
  unfold is_alpha, is_upper, is_lower, in_range, ord. intros H.
  apply orb_true_iff in H as [H|H]; apply andb_true_iff in H as [H1 H2]; apply N.leb_le in H1, H2; [left|right]; split; assumption.
Qed.
