(** Proofs about blocks of .cell files with both rows of numbers and species properties. *)
From Verif Require Import PyBase PyFacts PyVal Regex CastepRes NumSpec SpecLine SpecTable SpecStr SpecDict DictFacts IntStr Stream StreamFacts StrUtil StrUtilFacts Header HeaderFacts CellParam SpecCell.
From Verif Require CellFacts CellPosFacts CellBlockFacts PspotFacts.
Import CellBlockFacts.
Local Open Scope list_scope.
Local Open Scope nat_scope.

Theorem one_block_fails dc sp ls title clean x : one_block ls title clean -> block_parser dc sp title clean = Err x ->
  parse_cell_param_file dc sp ls = Err x.
Proof.
  intros (raw & h & body & e & t & -> & Hc & Hh & <- & Hbody & He & Hs) Hm. unfold parse_cell_param_file. cbn [cell_loop length]. rewrite (CellFacts.uncomment_code _ _ Hc). unfold l_from_re.
  rewrite (CellFacts.block_head_test _ _ Hh). cbn [negb]. replace (body ++ [e]) with (body ++ e :: [] ++ []) by reflexivity. rewrite l_scan_first.
  - cbn [orb bind]. rewrite (CellFacts.l_bool_cons h _ t (CellFacts.block_head_title _ _ Hh)). cbn [bind List.tl]. rewrite (CellFacts.block_head_title _ _ Hh). cbn [bind].
    replace (strip_comments [$"#"; $"!"] true (body ++ [e])) with clean.
    2: { refine (strip_inline_unique _ _ _ _ Hs (strip_inline_spec _ _ _)). discriminate. }
    rewrite Hm. reflexivity.
  - apply forallb_forall. intros l Hl. rewrite Forall_forall in Hbody. apply Hbody in Hl. apply negb_true_iff.
    apply (not_true _ (end_line l)); [symmetry; apply CellFacts.endblock_test|exact Hl].
  - now apply CellFacts.endblock_test.
Qed.
Lemma row_refused d l b xs units : row xs l -> blanks b -> general_line (GDict d, units) (l ++ b) = Err AssertionError.
Proof.
  intros H Hb. unfold general_line. rewrite free_uncomment by (apply free_app; [now apply (row_free xs)|now apply free_blanks]).
  rewrite (row_no_prop _ _ _ H), (findall_row _ _ _ H Hb). destruct (row_ok _ _ H) as [_ H0]. destruct xs as [|x xs]; [congruence|]. reflexivity.
Qed.
Theorem rows_after dc sp ls title us u body its l xs b rest : one_block ls title (us ++ body ++ (l ++ b) :: rest) ->
  ~ In title (map list_ascii_of_string own_format) -> unit_lines us u -> Forall2 property_line body its -> body <> [] -> row xs l -> blanks b ->
  parse_cell_param_file dc sp ls = Err AssertionError.
Proof.
  intros Hl Ht Hu Hp H0 Hr Hb. apply (one_block_fails _ _ _ _ _ _ Hl). rewrite general_parser by exact Ht. unfold parse_general.
  rewrite foldM_app, (unit_lines_fold us u _ Hu). cbn [bind]. destruct Hp as [|p [k v] body its Hp1 Hp]; [congruence|]. cbn [app foldM].
  rewrite (general_prop _ _ _ _ _ Hp1). cbn [bind]. rewrite foldM_app, (props_fold _ _ Hp). cbn [bind foldM]. now rewrite (row_refused _ _ _ _ _ Hr Hb).
Qed.
Theorem rows_before dc sp ls title us u body xss ps its out e : one_block ls title (us ++ body ++ ps ++ [e]) ->
  ~ In title (map list_ascii_of_string own_format) -> unit_lines us u -> rows body xss -> Forall2 property_line ps its -> ps <> [] ->
  merged its out -> end_line e -> free_of "0123456789#!" e ->
  parse_cell_param_file dc sp ls = Ok (VList [VDict false [(KStr title, with_units u (VDict false out))]]).
Proof.
  intros Hl Ht Hu Hr Hp H0 Hm He Hf. apply (PspotFacts.one_block_by _ _ _ _ _ _ Hl). rewrite general_parser by exact Ht. unfold parse_general.
  rewrite foldM_app, (unit_lines_fold us u _ Hu). cbn [bind]. rewrite foldM_app, (rows_fold _ _ Hr). cbn [bind]. rewrite foldM_app.
  destruct Hp as [|p [k v] ps its Hp1 Hp]; [congruence|]. cbn [foldM].
  rewrite (general_prop _ _ _ _ _ Hp1). cbn [bind]. rewrite (props_fold _ _ Hp). cbn [bind foldM]. rewrite (general_end _ _ He Hf). cbn [bind].
  apply (merged_fun key_eqb key_eqb_spec) in Hm. rewrite Hm. destruct u; reflexivity.
Qed.
