(** Property theorems C29, C41-C44, C59, C60: the command line.  [call] stands for the
    parser functions, [ext] for [str()] of floats and tuples. *)
From Verif Require Import PyBase PyVal DictUtil SpecDict DictFacts PathLib Cli SpecCli PathFacts CliFacts ExampleTools.
Local Open Scope list_scope.
Local Open Scope nat_scope.

(** C29.  The formats 'yaml' and 'ruamel' receive the parsed data with every tuple a list... *)
Theorem C29_yaml call ext f p g fmt v : dispatches f p g -> call g false f = Ok v -> fmt = $"yaml" \/ fmt = $"ruamel" ->
  exists v', parse_single call ext f p fmt false = Ok v' /\ yaml_image v v' /\ no_tuple v'.
Proof. exact (single_yaml call ext f p g fmt v). Qed.
Print Assumptions C29_yaml.
(** ...but 'pyyaml' does not... *)
Theorem C29_pyyaml_refuted : exists call ext f v,
  parse_single call ext f NoParser ($"pyyaml") false = Ok v /\ ~ no_tuple v.
Proof.
  exists (fun _ _ _ => Ok (VTuple [])), (fun _ => $"?"), (InPath ($"a.cell")), (VTuple []). split; [vmr|].
  intros H. inversion H as [v Hc| |]. apply Hc. left. eauto.
Qed.
(** ...and tuples used as keys stay in every format. *)
Theorem C29_keys_refuted : exists call ext f,
  parse_single call ext f NoParser ($"ruamel") false = Ok (VDict false [(KTuple [KStr ($"Si"); KInt 1], VInt 2)]).
Proof.
  exists (fun _ _ _ => Ok (VDict true [(KTuple [KStr ($"Si"); KInt 1], VInt 2)])), (fun _ => $"?"), (InPath ($"a.magres")). vmr.
Qed.
Example C29_ex : dispatches (InPath ($"x/a.b.cell")) NoParser ($"parse_cell_file") /\
  parse_single (fun _ _ _ => Ok (VTuple [VInt 1; VList [VTuple [VInt 2]]])) (fun _ => $"?") (InPath ($"x/a.b.cell")) NoParser ($"yaml") false =
    Ok (VList [VInt 1; VList [VList [VInt 2]]]).
Proof. split; [apply choose_ok; vmr|vmr]. Qed.

(** C59.  The format 'json' receives data json.dump accepts... *)
Theorem C59_json call ext f p g v : dispatches f p g -> call g false f = Ok v -> jsonable v ->
  exists v', parse_single call ext f p ($"json") false = Ok v' /\ json_image (key_str ext) v v' /\ json_ready v'.
Proof. exact (single_json call ext f p g v). Qed.
Print Assumptions C59_json.
(** ...and 'pyyaml', 'pprint' and 'print' the data as parsed. *)
Theorem C59_plain call ext f p g fmt : dispatches f p g -> ~ In fmt [$"json"; $"yaml"; $"ruamel"] ->
  parse_single call ext f p fmt false = call g false f.
Proof. exact (single_plain call ext f p g fmt). Qed.
Print Assumptions C59_plain.
Example C59_ex :
  parse_single (fun _ _ _ => Ok (VDict true [(KTuple [KStr ($"Si"); KInt 1], VList [VInt 2])])) (fun _ => $"?") (InPath ($"a.magres")) NoParser
    ($"json") false = Ok (VDict false [(KStr ($"Si_1"), VTuple [VInt 2])]).
Proof. vmr. Qed.

(** C60.  In testing mode every run is flattened to one level. *)
Theorem C60_testing ext call f p g fmt v : (forall k, ext k <> []) -> dispatches f p g ->
  call g (str_eqb g ($"parse_castep_file")) f = Ok v -> jsonable v ->
  (forall d its, v = VDict d its -> exists n out, json_image (key_str ext) v n /\
     parse_single call ext f p fmt true = Ok out /\ flat_of ext n out) /\
  (forall runs, v = VList runs \/ v = VTuple runs -> Forall (fun r => exists d its, r = VDict d its) runs ->
     exists ns outs, Forall2 (json_image (key_str ext)) runs ns /\
       parse_single call ext f p fmt true = Ok (VList outs) /\ Forall2 (flat_of ext) ns outs).
Proof. exact (single_testing ext call f p g fmt v). Qed.
Print Assumptions C60_testing.
Example C60_ex :
  parse_single (fun _ t _ => Ok (VList [VDict true [(KStr ($"t"), VBool t); (KStr ($"l"), VTuple [VInt 2; VInt 3])]])) (fun _ => $"?")
    (InPath ($"a.castep")) NoParser ($"print") true =
  Ok (VList [VDict false [(KStr ($"t"), VBool true); (KStr ($"l_0"), VInt 2); (KStr ($"l_1"), VInt 3)]]).
Proof. vmr. Qed.

(** C41.  The types included... the files of each type: those given, then for each seed
    those it stands for. *)
Theorem C41_selection fs a to_parse : normal_fs fs -> NoDup (map fst (a_files a)) ->
  (forall t, In t known_types -> In t (map fst (a_files a))) ->
  (forall s, In s (a_seeds a) -> exists root comps, denotes s root comps /\ comps <> [] /\ Forall no_wildcard comps /\
     (root = [] \/ ~ chosen to_parse a ($"err"))) ->
  exists a', parse_args fs a to_parse = Ok a' /\ map fst (a_files a') = map fst (a_files a) /\
    (forall t, In t known_types -> (a_inc a' t = true <-> chosen to_parse a t)) /\
    forall t given, In t known_types -> In (t, given) (a_files a) ->
      exists ls, Forall2 (picked known_types fs (fun t => a_inc a' t = true) t) (a_seeds a) ls /\
                 In (t, given ++ concat ls) (a_files a').
Proof. exact (parse_args_ok fs a to_parse). Qed.
Print Assumptions C41_selection.
Theorem C41_extract a l : NoDup (map fst (a_files a)) -> extract_parsables a = Ok l ->
  map fst l = known_types /\ forall t ps, In (t, ps) l <-> In t known_types /\ In (t, ps) (a_files a).
Proof. exact (extract_ok a l). Qed.
Print Assumptions C41_extract.
(** A seed given as an absolute path fails as soon as error files are included (the default). *)
Theorem C41_absolute fs a to_parse s seeds root comps : a_seeds a = s :: seeds -> NoDup (map fst (a_files a)) ->
  (forall t, In t known_types -> In t (map fst (a_files a))) ->
  denotes s root comps -> root <> [] -> comps <> [] -> (forall t, ~ (type_of_path s t /\ In t known_types)) ->
  chosen to_parse a ($"err") -> parse_args fs a to_parse = Err NotImplementedErr.
Proof. exact (parse_args_absolute fs a to_parse s seeds root comps). Qed.
Print Assumptions C41_absolute.

Definition lns2 (l : list string) : fsys := map (fun f => (f, true)) (map (fun x => $x) l).
Definition no_files : list (str * list str) := map (fun t => (t, [])) known_types.
Definition seeds_only (ss : list str) : args := {| a_seeds := ss; a_inc_all := false; a_inc := fun _ => false; a_files := no_files |}.
Definition files_of (r : result args) : list (str * list str) :=
  match r with Ok a => filter (fun x => negb (isempty (snd x))) (a_files a) | Err _ => [] end.
Example C41_ex :
  files_of (parse_args (lns2 ["Si.castep"; "Si.cell"; "Si.0001.err"; "Si.0002.err"; "Ge.castep"; "Si.usp"; "x.md"]%string) (seeds_only [$"Si"; $"x.md"]) []) =
    [($"castep", [$"Si.castep"]); ($"cell", [$"Si.cell"]); ($"md", [$"x.md"]); ($"err", [$"Si.0001.err"; $"Si.0002.err"])].
Proof. vmr. Qed.
Example C41_ex_hyps : NoDup (map fst no_files) /\ (forall t, In t known_types -> In t (map fst no_files)) /\
  denotes ($"Si") [] [$"Si"] /\ no_wildcard ($"Si") /\ chosen [] (seeds_only [$"Si"]) ($"err").
Proof.
  assert (E : map fst no_files = known_types) by vmr.
  split; [rewrite E; apply known_nodup|]. split; [rewrite E; auto|]. split; [apply denotes_iff; vmr|].
  split; [repeat split; cbn; intuition discriminate|]. right. right. split; [reflexivity|]. now right.
Qed.
(** A seed with a dot does not find its own files... *)
Theorem C41_dotted_seed_refuted : exists fs s,
  fs = [(s ++ $".castep", true)] /\ files_of (parse_args fs (seeds_only [s]) []) = [].
Proof. exists [($"Si.1.castep", true)], ($"Si.1"). split; vmr. Qed.
(** ...but those of another. *)
Theorem C41_dotted_seed_wrong_refuted : exists fs s,
  fs = [(s ++ $".castep", true); ($"Si.castep", true)] /\
  files_of (parse_args fs (seeds_only [s]) []) = [($"castep", [$"Si.castep"])].
Proof. exists [($"Si.1.castep", true); ($"Si.castep", true)], ($"Si.1"). split; vmr. Qed.
(** Error files of a seed in a directory are missed. *)
Theorem C41_directory_err_refuted : exists fs s,
  fs = [(s ++ $".castep", true); (s ++ $".0001.err", true)] /\
  files_of (parse_args fs (seeds_only [s]) []) = [($"castep", [s ++ $".castep"])].
Proof. exists [($"run/Si.castep", true); ($"run/Si.0001.err", true)], ($"run/Si"). split; vmr. Qed.
Example C41_absolute_ex : parse_args [($"/tmp/Si.castep", true)] (seeds_only [$"/tmp/Si"]) [] = Err NotImplementedErr.
Proof. vmr. Qed.

(** C42.  The parser used is the one given, named or of the file's type... *)
Theorem C42_dispatch call ext f p g fmt testing : dispatches f p g ->
  parse_single call ext f p fmt testing =
  (v <- call g (str_eqb g ($"parse_castep_file") && testing) f ;; v <- prepare ext fmt testing v ;;
   if testing then flatten_all ext v else Ok v).
Proof. exact (single_dispatch call ext f p g fmt testing). Qed.
Print Assumptions C42_dispatch.
(** ...and without one it is an error. *)
Theorem C42_no_parser call ext f p fmt testing : (forall g, ~ dispatches f p g) -> parse_single call ext f p fmt testing = Err ValueError.
Proof. exact (single_none call ext f p fmt testing). Qed.
Print Assumptions C42_no_parser.
(** At most one parser fits. *)
Theorem C42_unique f p g g' : dispatches f p g -> dispatches f p g' -> g = g'.
Proof. exact (dispatches_unique f p g g'). Qed.
Print Assumptions C42_unique.
(** Names of binary parsers are not recognised. *)
Theorem C42_binary_name_refuted : exists n g, In (n, g) every_parser /\
  (forall call ext fmt testing, parse_single call ext (InHandle 0) (Named n) fmt testing = Err ValueError) /\
  choose_parser (InPath ($"a.cell")) (Named n) = Ok ($"parse_cell_file").
Proof.
  exists ($"cst_esp"), ($"parse_cst_esp_file"). split; [apply all_parsers_iff; vmr|]. split; [|vmr]. intros. reflexivity.
Qed.
Example C42_ex : dispatches (InPath ($"x/a.b.cell")) NoParser ($"parse_cell_file") /\
  dispatches (InPath ($"x/a.b.cell")) (Named ($"param")) ($"parse_param_file") /\
  dispatches (InHandle 3) (Func ($"f")) ($"f") /\ dispatches (InPath ($"a.epme_bin")) NoParser ($"parse_epme_bin_file") /\
  (forall g, ~ dispatches (InPath ($"a.cell~")) NoParser g) /\ (forall g, ~ dispatches (InPath ($".cell")) NoParser g).
Proof.
  split; [apply choose_ok; vmr|]. split; [apply choose_ok; vmr|]. split; [apply choose_ok; vmr|]. split; [apply choose_ok; vmr|].
  split; intros g H; apply choose_ok in H; discriminate H.
Qed.

(** C43.  What is dumped when every file can be parsed... *)
Theorem C43_all call ext fmt testing yaml out d files outs data : dumps_with yaml fmt d ->
  (forall t ps, In (t, ps) files -> In t known_types) ->
  Forall2 (fun tp pv => fst pv = snd tp /\ outcome_of call ext fmt testing tp (Ok (snd pv))) (requests files) outs -> merged outs data ->
  parse_all call ext yaml out fmt testing files = Ok (d, out, shown data).
Proof. exact (all_ok call ext fmt testing yaml out d files outs data). Qed.
Print Assumptions C43_all.
(** ...the first failure... *)
Theorem C43_failure call ext fmt testing yaml out d files tp e reqs outs rest : dumps_with yaml fmt d ->
  (forall t ps, In (t, ps) files -> In t known_types) ->
  requests files = reqs ++ tp :: rest ->
  Forall2 (fun tp pv => fst pv = snd tp /\ outcome_of call ext fmt testing tp (Ok (snd pv))) reqs outs ->
  outcome_of call ext fmt testing tp (Err e) -> parse_all call ext yaml out fmt testing files = Err e.
Proof. exact (all_err call ext fmt testing yaml out d files tp e reqs outs rest). Qed.
Print Assumptions C43_failure.
(** ...and an unknown format fails before anything is parsed. *)
Theorem C43_format call ext fmt testing yaml out files : (forall d, ~ dumps_with yaml fmt d) ->
  parse_all call ext yaml out fmt testing files = Err (if str_eqb fmt ($"yaml") && match yaml with None => true | _ => false end then ImportError else ValueError).
Proof. exact (all_format call ext fmt testing yaml out files). Qed.
Print Assumptions C43_format.
Definition ex_call (g : str) (_ : bool) (f : infile) : result pyval :=
  match f with InPath s => if str_eqb s ($"bad") then Err KeyError else Ok (VList [VStr g; VStr s]) | _ => Err TypeError end.
Example C43_ex :
  parse_all ex_call (fun _ => $"?") None (ToFile ($"o")) ($"print") false
    [($"cell", [$"a"; $"b"]); ($"md", [$"a"]); ($"err", [])] =
  Ok ($"print_dumper", ToFile ($"o"), Several [($"a", VList [VStr ($"parse_md_geom_file"); VStr ($"a")]);
                                               ($"b", VList [VStr ($"parse_cell_file"); VStr ($"b")])]) /\
  parse_all ex_call (fun _ => $"?") None ToStdout ($"print") false [($"cell", []); ($"md", [$"a"])] =
  Ok ($"print_dumper", ToStdout, Single (VList [VStr ($"parse_md_geom_file"); VStr ($"a")])) /\
  parse_all ex_call (fun _ => $"?") None ToStdout ($"print") false [($"cell", [$"a"; $"bad"]); ($"md", [$"a"])] = Err KeyError.
Proof. repeat split; vmr. Qed.

(** C44.  The dumper chosen... *)
Theorem C44_dumper yaml fmt d : get_dumpers yaml fmt = Ok d <-> dumps_with yaml fmt d.
Proof. exact (get_dumpers_ok yaml fmt d). Qed.
Print Assumptions C44_dumper.
(** ...the errors... *)
Theorem C44_error yaml fmt e : get_dumpers yaml fmt = Err e ->
  (e = ImportError /\ fmt = $"yaml" /\ yaml = None) \/ (e = ValueError /\ (fmt <> $"yaml" \/ yaml <> None) /\ forall d, ~ dumps_with yaml fmt d).
Proof. exact (get_dumpers_err yaml fmt e). Qed.
Print Assumptions C44_error.
(** ...what 'yaml' stands for, given the packages installed... *)
Theorem C44_yaml pyyaml ruamel : get_dumpers (yaml_type pyyaml ruamel) ($"yaml") =
  if ruamel then Ok ($"ruamel_dumper") else if pyyaml then Ok ($"pyyaml_dumper") else Err ImportError.
Proof. exact (dumpers_yaml pyyaml ruamel). Qed.
Print Assumptions C44_yaml.
(** ...and the command line's choices, which leave out 'yaml'. *)
Theorem C44_cli fmt : cli_format_ok fmt = true <-> In fmt (map fst dumpers).
Proof. exact (cli_format_iff fmt). Qed.
Print Assumptions C44_cli.
Theorem C44_cli_yaml_refuted : exists fmt d, dumps_with (yaml_type true true) fmt d /\ cli_format_ok fmt = false.
Proof. exists ($"yaml"), ($"ruamel_dumper"). split; [apply get_dumpers_ok|]; vmr. Qed.
Example C44_ex : get_dumpers None ($"json") = Ok ($"json_dumper") /\ get_dumpers None ($"xml") = Err ValueError /\ cli_format_ok ($"pprint") = true.
Proof. repeat split; vmr. Qed.
