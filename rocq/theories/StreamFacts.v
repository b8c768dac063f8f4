(** [Stream.v] agrees with [FileWrapper.v]; cutting text into lines. *)
From Verif Require Import PyBase PyFacts PyVal Regex SpecText SpecLine NumSpec FileWrapper FileWrapperObs FileWrapperFacts Stream
  NumFacts NumVal NumProps SpecStr StrUtilFacts.
Local Open Scope list_scope.
Local Open Scope nat_scope.

Lemma file_lines_lines s : file_lines s = lines s.
Proof. induction s as [|c s IH]; cbn; [reflexivity|]. now rewrite IH. Qed.

Lemma file_lines_of ls text : lines_of ls text -> file_lines text = ls.
Proof. rewrite file_lines_lines. apply lines_of_unique. Qed.
Lemma file_lines_spec text : lines_of (file_lines text) text.
Proof. rewrite file_lines_lines. apply lines_spec. Qed.

(** ** l_scan *)
Lemma l_scan_cut endp : forall ls n found, found < n ->
  l_scan endp n found ls = match FileWrapperFacts.cut endp (n - found) ls with
                           | Some (a, b) => (a, true, b)
                           | None => (ls, false, [])
                           end.
Proof.
  induction ls as [|l ls IH]; intros n found Hn; cbn [l_scan FileWrapperFacts.cut]; [reflexivity|].
  destruct (endp l).
  - destruct (Nat.eqb_spec (S found) n) as [E|E].
    + replace (n - found) with 1 by lia. reflexivity.
    + rewrite IH by lia. replace (n - found - 1) with (n - S found) by lia.
      destruct (n - found) as [|[|k]] eqn:Ek; [lia|lia|].
      destruct (FileWrapperFacts.cut endp (n - S found) ls) as [[a b]|]; reflexivity.
  - rewrite IH by lia. destruct (FileWrapperFacts.cut endp (n - found) ls) as [[a b]|]; reflexivity.
Qed.

Lemma l_from_re_agrees init s ls startp endp n eof :
  reachable s -> delivers s ls -> 1 <= n ->
  data_of (fst (from_re init s startp endp n eof)) = fst (l_from_re init ls startp endp n eof) /\
  delivers (snd (from_re init s startp endp n eof)) (snd (l_from_re init ls startp endp n eof)).
Proof.
  intros Hr Hd Hn. apply reachable_wf in Hr. apply delivers_iff in Hd; [|exact Hr]. subst ls.
  unfold l_from_re. destruct (startp init) eqn:Es; cbn [negb].
  - destruct (from_re_ok init s startp endp n eof Hr Hn Es) as (s' & Hs' & H).
    rewrite l_scan_cut, Nat.sub_0_r by lia.
    destruct (FileWrapperFacts.cut endp n (src_rest s)) as [[a b]|]; destruct H as [-> <-]; cbn [fst snd orb].
    + split; [reflexivity|]. now apply delivers_rest.
    + destruct eof; (split; [reflexivity|now apply delivers_rest]).
  - unfold from_re. rewrite Es. cbn. split; [reflexivity|now apply delivers_rest].
Qed.

Lemma l_get_lines_agrees s ls n eof :
  reachable s -> delivers s ls ->
  data_of (fst (get_lines s n eof)) = fst (l_get_lines ls n eof) /\
  delivers (snd (get_lines s n eof)) (snd (l_get_lines ls n eof)).
Proof.
  intros Hr Hd. apply reachable_wf in Hr. apply delivers_iff in Hd; [|exact Hr]. subst ls.
  unfold l_get_lines. destruct (get_lines_ok s n eof Hr) as (s' & Hs' & H).
  destruct (n <? length (src_rest s)); destruct H as [-> <-]; cbn [fst snd].
  - split; [reflexivity|now apply delivers_rest].
  - destruct eof; (split; [reflexivity|now apply delivers_rest]).
Qed.

(** Cutting after the first line that matches. *)
Lemma l_scan_first endp pre l rest : forallb (fun x => negb (endp x)) pre = true -> endp l = true ->
  l_scan endp 1 0 (pre ++ l :: rest) = (pre ++ [l], true, rest).
Proof.
  intros Hp Hl. induction pre as [|x pre IH]; cbn [app l_scan].
  - now rewrite Hl.
  - cbn in Hp. apply andb_prop in Hp as [Hx Hp]. apply negb_true_iff in Hx. rewrite Hx, (IH Hp). reflexivity.
Qed.
Lemma l_scan_none endp n found ls : forallb (fun x => negb (endp x)) ls = true -> l_scan endp n found ls = (ls, false, []).
Proof.
  intros H. induction ls as [|x ls IH]; [reflexivity|]. cbn in H. apply andb_prop in H as [Hx H].
  apply negb_true_iff in Hx. cbn. now rewrite Hx, (IH H).
Qed.
Lemma l_scan_skip endp n found pre ls : forallb (fun x => negb (endp x)) pre = true ->
  l_scan endp n found (pre ++ ls) = let '(d, b, r) := l_scan endp n found ls in (pre ++ d, b, r).
Proof.
  intros H. induction pre as [|x pre IH]; cbn [app].
  - now destruct (l_scan endp n found ls) as [[d b] r].
  - cbn in H. apply andb_prop in H as [Hx H]. apply negb_true_iff in Hx. cbn [l_scan]. rewrite Hx, (IH H).
    now destruct (l_scan endp n found ls) as [[d b] r].
Qed.

(** A literal pattern found anywhere is substring search. *)
Lemma startswith_iff p s : startswith p s = true <-> exists t, s = p ++ t.
Proof.
  unfold startswith. destruct (strip_prefix p s) as [t|] eqn:E.
  - apply RegexFacts.strip_prefix_some in E. split; eauto.
  - split; [discriminate|]. intros [t Ht]. apply RegexFacts.strip_prefix_some in Ht. congruence.
Qed.
Lemma contains_iff p s : contains p s = true <-> exists a b, s = a ++ p ++ b.
Proof.
  revert p. induction s as [|c s IH]; intros p; cbn [contains].
  - rewrite orb_false_r, startswith_iff. split.
    + intros [t Ht]. exists [], t. exact Ht.
    + intros (a & b & E). destruct a; [|discriminate]. exists b. exact E.
  - rewrite orb_true_iff, startswith_iff, IH. split.
    + intros [[t ->]|(a & b & ->)]; [exists [], t; reflexivity|exists (c :: a), b; reflexivity].
    + intros (a & b & E). destruct a as [|x a].
      * left. exists b. exact E.
      * right. injection E as -> ->. exists a, b. reflexivity.
Qed.
