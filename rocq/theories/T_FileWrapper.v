(** Property theorems C01-C08: FileWrapper and Block. *)
From Verif Require Import PyBase SpecText FileWrapper FileWrapperObs FileWrapperFacts.
Local Open Scope list_scope.
Local Open Scope nat_scope.

(** C01.  A text has exactly one cutting into lines, and [n] calls of next on
    the opened file return the first [n] of them, then StopIteration for ever. *)
Theorem C01_iteration text : exists ls, lines_of ls text /\ (forall ls', lines_of ls' text -> ls' = ls) /\
  forall n, fst (run fw_step (repeat Next n) (fw_open text)) =
            map Line (firstn n ls) ++ repeat Stop (n - length ls).
Proof. exact (iteration text). Qed.
Print Assumptions C01_iteration.

Definition ex_text : str := ($"ab" ++ nl ++ nl ++ $"c").
Definition ex_lines : list str := [$"ab" ++ nl; nl; $"c"].
Lemma ex_text_lines : lines_of ex_lines ex_text.
Proof. exact (lines_spec ex_text). Qed.
Example C01_ex : fst (run fw_step (repeat Next 5) (fw_open ex_text)) =
  [Line ($"ab" ++ nl); Line nl; Line ($"c"); Stop; Stop].
Proof. reflexivity. Qed.

(** C02.  Every history of next and rewind behaves like the one-step-undo
    cursor over the lines. *)
Theorem C02_histories text ls ops : lines_of ls text ->
  fst (run fw_step ops (fw_open text)) = fst (run (cursor_step ls) ops cursor0).
Proof. exact (histories text ls ops). Qed.
Print Assumptions C02_histories.

Example C02_ex : fst (run fw_step [Next; Rewind; Next; Next; Rewind; Rewind; Next] (fw_open ex_text)) =
  [Line ($"ab" ++ nl); Done; Line ($"ab" ++ nl); Line nl; Done; Done; Line nl].
Proof. reflexivity. Qed.

(** C03.  The line number is the number of lines before the cursor plus the
    number of failed next calls so far. *)
Theorem C03_lineno_exact text ls ops : lines_of ls text ->
  fw_lineno (snd (run fw_step ops (fw_open text))) =
  Z.of_nat (c_idx (snd (run (cursor_step ls) ops cursor0)) + stops (fst (run (cursor_step ls) ops cursor0))).
Proof. exact (lineno_exact text ls ops). Qed.
Print Assumptions C03_lineno_exact.

(** It is the number of lines before the cursor when the end was never hit... *)
Theorem C03_lineno_partial text ls ops : lines_of ls text ->
  ~ In Stop (fst (run (cursor_step ls) ops cursor0)) ->
  fw_lineno (snd (run fw_step ops (fw_open text))) =
  Z.of_nat (c_idx (snd (run (cursor_step ls) ops cursor0))).
Proof. exact (lineno_partial text ls ops). Qed.
Print Assumptions C03_lineno_partial.

(** ...but not for every history. *)
Theorem C03_lineno_refuted : exists text ls ops, lines_of ls text /\
  fw_lineno (snd (run fw_step ops (fw_open text))) <>
  Z.of_nat (c_idx (snd (run (cursor_step ls) ops cursor0))).
Proof. exists [], [], [Next]. split; [constructor|]. vm_compute. discriminate. Qed.
Print Assumptions C03_lineno_refuted.

Example C03_ex : ~ In Stop (fst (run (cursor_step ex_lines) [Next; Next; Rewind] cursor0)) /\
  fw_lineno (snd (run fw_step [Next; Next; Rewind] (fw_open ex_text))) = 1%Z.
Proof. split; [cbn; intuition discriminate|reflexivity]. Qed.

(** C04.  No start line: empty block, nothing consumed. *)
Theorem C04_no_start init s startp endp n_end eof : startp init = false ->
  exists b, from_re init s startp endp n_end eof = (Ok b, s) /\ b_data b = [] /\ b_bool b = false.
Proof. exact (from_re_no_start init s startp endp n_end eof). Qed.
Print Assumptions C04_no_start.

(** Otherwise: the block ends with the [n_end]-th line matching [end]. *)
Theorem C04_from_re init s startp endp n_end eof pre l rest :
  reachable s -> delivers s (pre ++ l :: rest) ->
  startp init = true -> endp l = true -> n_end = S (count endp pre) ->
  exists b s', from_re init s startp endp n_end eof = (Ok b, s') /\
    b_data b = init :: pre ++ [l] /\ delivers (SBlock b) (init :: pre ++ [l]) /\ delivers s' rest.
Proof. exact (from_re_block' init s startp endp n_end eof pre l rest). Qed.
Print Assumptions C04_from_re.

(** Too few matching lines: OSError, or everything when EOF is possible. *)
Theorem C04_from_re_eof init s startp endp n_end ls :
  reachable s -> delivers s ls -> startp init = true -> count endp ls < n_end ->
  (exists s', from_re init s startp endp n_end false = (Err OSError, s') /\ delivers s' []) /\
  (exists b s', from_re init s startp endp n_end true = (Ok b, s') /\ b_data b = init :: ls /\ delivers s' []).
Proof. exact (from_re_eof init s startp endp n_end ls). Qed.
Print Assumptions C04_from_re_eof.

Example C04_ex : reachable (SFile (fw_open ex_text)) /\
  delivers (SFile (fw_open ex_text)) ([$"ab" ++ nl] ++ nl :: [$"c"]) /\
  str_eqb nl nl = true /\ 1 = S (count (str_eqb nl) [$"ab" ++ nl]).
Proof. split; [constructor|]. split; [apply delivers_file, ex_text_lines|]. split; reflexivity. Qed.

(** C05. *)
Theorem C05_get_lines s ls n eof :
  reachable s -> delivers s ls -> n < length ls ->
  exists b s', get_lines s n eof = (Ok b, s') /\ b_data b = firstn n ls /\ delivers s' (skipn (S n) ls).
Proof. exact (get_lines_exact s ls n eof). Qed.
Print Assumptions C05_get_lines.

Theorem C05_get_lines_eof s ls n :
  reachable s -> delivers s ls -> length ls <= n ->
  (exists s', get_lines s n false = (Err OSError, s') /\ delivers s' []) /\
  (exists b s', get_lines s n true = (Ok b, s') /\ b_data b = ls /\ delivers s' []).
Proof. exact (get_lines_eof s ls n). Qed.
Print Assumptions C05_get_lines_eof.

(** The natural reading "returns the next n lines and leaves the rest" fails,
    both when more lines remain (one is lost)... *)
Theorem C05_natural_reading_refuted : exists s ls n b s',
  reachable s /\ delivers s ls /\ n < length ls /\
  get_lines s n false = (Ok b, s') /\ ~ delivers s' (skipn n ls).
Proof.
  exists (SFile (fw_open ex_text)), ex_lines, 1. eexists _, _.
  split; [constructor|]. split; [apply delivers_file, ex_text_lines|]. split; [cbn; lia|].
  split; [reflexivity|]. intros H. specialize (H 0). discriminate.
Qed.
Print Assumptions C05_natural_reading_refuted.
(** ...and when exactly [n] lines remain (an error). *)
Theorem C05_natural_reading_refuted_eof : exists s ls, 
  reachable s /\ delivers s ls /\ fst (get_lines s (length ls) false) = Err OSError.
Proof.
  exists (SFile (fw_open ex_text)), ex_lines.
  split; [constructor|]. split; [apply delivers_file, ex_text_lines|]. reflexivity.
Qed.
Print Assumptions C05_natural_reading_refuted_eof.

Example C05_ex : data_of (fst (get_lines (SFile (fw_open ex_text)) 2 false)) = Ok [$"ab" ++ nl; nl].
Proof. reflexivity. Qed.

(** C06.  A block behaves like an integer cursor; its contents never change. *)
Theorem C06_block_histories parent data ops :
  let b := new_block parent data in
  let b' := snd (run b_step ops b) in
  fst (run b_step ops b) = fst (run (icursor_step data) ops 0) /\
  b_len b' = length data /\ b_bool b' = b_bool b /\ b_str b' = b_str b /\
  (forall k, b_getitem b' k = b_getitem b k) /\
  (forall k, k < length data -> exists l, nth_error data k = Some l /\
     b_getitem b' (Z.of_nat k) = Ok l /\ b_getitem b' (Z.of_nat k - Z.of_nat (length data)) = Ok l).
Proof. exact (block_histories parent data ops). Qed.
Print Assumptions C06_block_histories.

Example C06_ex : fst (run b_step [Rewind; Next; Next; Next; Rewind; Rewind; Next] (new_block None [$"a"; $"b"])) =
  [Refused; Line ($"a"); Line ($"b"); Stop; Done; Done; Line ($"b")].
Proof. reflexivity. Qed.

(** C07.  While iterating a block obtained by [from_re] right after reading its
    first line, [lineno] is the 1-based number of the line last returned. *)
Theorem C07_block_lineno text ls ops init startp endp n_end eof b s' fore back j l :
  lines_of ls text ->
  let f := snd (run fw_step ops (fw_open text)) in
  let c := snd (run (cursor_step ls) ops cursor0) in
  stops (fst (run (cursor_step ls) ops cursor0)) = 0 ->
  1 <= c_idx c -> nth_error ls (c_idx c - 1) = Some init ->
  1 <= n_end -> startp init = true ->
  from_re init (SFile f) startp endp n_end eof = (Ok b, s') ->
  let b' := b_remove_bounds fore back b in
  nth_error (b_data b') j = Some l ->
  exists z, b_lineno (nexts (S j) b') = Z.of_nat (S z) /\ nth_error ls z = Some l.
Proof. exact (block_lineno text ls ops init startp endp n_end eof b s' fore back j l). Qed.
Print Assumptions C07_block_lineno.

(** For [get_lines] the number is one less than that of the line returned. *)
Theorem C07_get_lines_lineno text ls ops n eof b s' j l :
  lines_of ls text ->
  let f := snd (run fw_step ops (fw_open text)) in
  let c := snd (run (cursor_step ls) ops cursor0) in
  stops (fst (run (cursor_step ls) ops cursor0)) = 0 ->
  get_lines (SFile f) n eof = (Ok b, s') ->
  nth_error (b_data b) j = Some l ->
  exists z, b_lineno (nexts (S j) b) = Z.of_nat z /\ nth_error ls z = Some l.
Proof. exact (get_lines_lineno text ls ops n eof b s' j l). Qed.
Print Assumptions C07_get_lines_lineno.

Theorem C07_get_lines_lineno_refuted : exists text ls n b s',
  lines_of ls text /\ NoDup ls /\ get_lines (SFile (fw_open text)) n false = (Ok b, s') /\
  exists j l, nth_error (b_data b) j = Some l /\
    ~ exists z, b_lineno (nexts (S j) b) = Z.of_nat (S z) /\ nth_error ls z = Some l.
Proof.
  exists ex_text, ex_lines, 1. eexists _, _. split; [apply ex_text_lines|].
  split; [repeat constructor; cbn; intuition discriminate|]. split; [reflexivity|].
  exists 0, ($"ab" ++ nl). split; [reflexivity|]. intros (z & H & _). vm_compute in H. 
  destruct z; discriminate.
Qed.
Print Assumptions C07_get_lines_lineno_refuted.

Example C07_ex :
  let f := snd (run fw_step [Next; Next] (fw_open ex_text)) in
  exists b s', from_re nl (SFile f) (str_eqb nl) (str_eqb ($"c")) 1 false = (Ok b, s') /\
    nth_error (b_data b) 1 = Some ($"c") /\ b_lineno (nexts 2 b) = 3%Z.
Proof. eexists _, _. split; [reflexivity|]. split; reflexivity. Qed.

(** C08.  Whatever the source, equal remaining lines give equal results. *)
Theorem C08_from_re_source init s1 s2 ls startp endp n_end eof :
  reachable s1 -> reachable s2 -> delivers s1 ls -> delivers s2 ls -> 1 <= n_end ->
  data_of (fst (from_re init s1 startp endp n_end eof)) = data_of (fst (from_re init s2 startp endp n_end eof)) /\
  exists rest, delivers (snd (from_re init s1 startp endp n_end eof)) rest /\
               delivers (snd (from_re init s2 startp endp n_end eof)) rest.
Proof. exact (from_re_source init s1 s2 ls startp endp n_end eof). Qed.
Print Assumptions C08_from_re_source.

Theorem C08_get_lines_source s1 s2 ls n eof :
  reachable s1 -> reachable s2 -> delivers s1 ls -> delivers s2 ls ->
  data_of (fst (get_lines s1 n eof)) = data_of (fst (get_lines s2 n eof)) /\
  exists rest, delivers (snd (get_lines s1 n eof)) rest /\ delivers (snd (get_lines s2 n eof)) rest.
Proof. exact (get_lines_source s1 s2 ls n eof). Qed.
Print Assumptions C08_get_lines_source.

(** In particular a file and a block of its lines. *)
Theorem C08_file_block text ls parent : lines_of ls text ->
  reachable (SFile (fw_open text)) /\ reachable (SBlock (new_block parent ls)) /\
  delivers (SFile (fw_open text)) ls /\ delivers (SBlock (new_block parent ls)) ls.
Proof. exact (file_block text ls parent). Qed.
Print Assumptions C08_file_block.
