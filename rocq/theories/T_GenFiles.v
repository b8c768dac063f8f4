(** Property theorems C39, C40: predicted output files.  [first] picks an element of a
    set of functionals, [ext] is [str()] of float and tuple keys, [exists_file] and
    [read] stand for the file system and [parse_cell_param_file]. *)
From Coq Require Import Sorted.
From Verif Require Import PyBase PyVal DictUtil SpecDict PathLib SpecCli GenFiles SpecGen GenFacts GenMain GenAll ExampleTools.
Local Open Scope list_scope.
Local Open Scope nat_scope.

(** C39.  The answer is strictly increasing and has the main output file, named after
    the seed without directories and without its (up to two) file types; the data is
    what was given, else the file given, else the seed's own file, else nothing. *)
Theorem C39_canonical first ext exists_file read seed pf cf pd cd l :
  get_generated_files first ext exists_file read seed pf cf pd cd = Ok l ->
  exists root dirs name base typ stem typ' pfile cfile p cell,
    denotes seed root (dirs ++ [name]) /\ file_type name base typ /\ file_type base stem typ' /\
    file_used pf root dirs base ".param" pfile /\ file_used cf root dirs base ".cell" cfile /\
    used exists_file read pd pfile p /\ used exists_file read cd cfile cell /\
    StronglySorted text_lt l /\ In (stem ++ $".castep") l /\
    (well_keyed (VDict false p) -> well_keyed (VDict false cell) ->
     exists xc, (forall r, In r xc <-> functional p r) /\
       forall f, In f l <-> predicted (key_str ext) p cell stem (first xc) f).
Proof. exact (generated_iff first ext exists_file read seed pf cf pd cd l). Qed.
Print Assumptions C39_canonical.
(** The name of the main output file is not always made from the seed as given: a seed
    with dots loses two parts, and its directory is lost. *)
Theorem C39_dotted_seed_refuted : exists first ext exists_file read,
  get_generated_files first ext exists_file read ($"run/si.scan.1") None None (Some []) (Some []) =
  Ok [$"si.bands"; $"si.bib"; $"si.castep"; $"si.castep_bin"; $"si.check"; $"si.cst_esp"].
Proof. exists (fun _ => []), (fun _ => []), (fun _ => false), (fun _ => Err OSError). vmr. Qed.
Example C39_ex : get_generated_files (fun _ => []) (fun _ => []) (str_eqb ($"d/a.param")) (fun _ => Ok [[(KStr ($"task"), VStr ($"Geom"))]])
    ($"d/a") None None None (Some []) =
  Ok [$"a.bands"; $"a.bib"; $"a.castep"; $"a.castep_bin"; $"a.check"; $"a.cst_esp"; $"a.geom"].
Proof. vmr. Qed.

(** C40.  A file is predicted exactly when a rule says so. *)
Theorem C40_rules first ext p cell seed l : well_keyed (VDict false p) -> well_keyed (VDict false cell) ->
  predict first ext p cell seed = Ok l ->
  StronglySorted text_lt l /\ exists xc, (forall r, In r xc <-> functional p r) /\
    forall f, In f l <-> predicted (key_str ext) p cell seed (first xc) f.
Proof. exact (predict_iff first ext p cell seed l). Qed.
Print Assumptions C40_rules.
(** Options of the right kinds always lead to an answer. *)
Theorem C40_answers first ext p cell seed : well_keyed (VDict false p) -> well_keyed (VDict false cell) ->
  sensible p cell -> exists l, predict first ext p cell seed = Ok l.
Proof. exact (predict_total first ext p cell seed). Qed.
Print Assumptions C40_answers.
(** Two of the tasks never do, nor does a core loss calculation with a non-local functional. *)
Theorem C40_wannier_refuted : exists first ext,
  predict first ext [(KStr ($"task"), VStr ($"Wannier"))] [] ($"a") = Err KeyError.
Proof. exists (fun _ => []), (fun _ => []). vmr. Qed.
Theorem C40_coreloss_refuted : exists first ext,
  predict first ext [(KStr ($"task"), VStr ($"Spectral")); (KStr ($"spectral_task"), VStr ($"coreloss"));
                     (KStr ($"xc_functional"), VStr ($"PBE0"))] [] ($"a") = Err KeyError.
Proof. exists (fun _ => []), (fun _ => []). vmr. Qed.
(** Norm-conserving potentials are never noticed: generated ones are always called ultrasoft. *)
Theorem C40_usp_refuted : exists first ext,
  predict first ext [(KStr ($"write_none"), VBool true)] [(KStr ($"species_pot"), VDict false [(KStr ($"C"), VDict false []); (KStr ($"Si"), VStr ($"Si_00.recpot"))])] ($"a") =
  Ok [$"C_EXT_LDA_OTF.usp"; $"a.castep"].
Proof. exists (fun l => hd [] l), (fun _ => []). vmr. Qed.

Definition ex_p : list (key * pyval) :=
  [(KStr ($"task"), VStr ($"Molecular Dynamics")); (KStr ($"md_num_beads"), VInt 4); (KStr ($"num_farms"), VInt 2);
   (KStr ($"write_checkpoint"), VStr ($"minimal")); (KStr ($"xc_functional"), VStr ($"PBE")); (KStr ($"write_bib"), VBool false);
   (KStr ($"md_extrap"), VStr ($"mixed"));
   (KStr ($"devel_code"), VDict false [(KStr ($"_pp"), VBool true); (KStr ($"pp"), VDict false [(KStr ($"pot_print"), VBool true)])])].
Definition ex_cell : list (key * pyval) :=
  [(KStr ($"positions_frac"), VDict false [(KTuple [KStr ($"Si"); KInt 1], VNone); (KTuple [KStr ($"O"); KInt 1], VNone); (KTuple [KStr ($"Si"); KInt 2], VNone)]);
   (KStr ($"species_pot"), VDict false [(KStr ($"Si"), VDict false [(KStr ($"print"), VBool true)])])].
Lemma ex_keyed : well_keyed (VDict false ex_p) /\ well_keyed (VDict false ex_cell).
Proof.
  assert (Lf : forall v, (forall l, v <> VTuple l) -> (forall l, v <> VList l) -> (forall b l, v <> VDict b l) -> well_keyed v).
  { intros v H1 H2 H3. constructor. intros [[l H]|[[l H]|(b & l & H)]]; [now apply (H1 l)|now apply (H2 l)|now apply (H3 b l)]. }
  Ltac dk Lf := match goal with
    | |- well_keyed (VDict _ _) => constructor; [repeat (constructor; [cbn; intuition discriminate|]); constructor
        |let k := fresh in let v := fresh in let H := fresh in intros k v H; cbn [In] in H; repeat (destruct H as [H|H]; [injection H as <- <-; dk Lf|]); destruct H]
    | |- _ => apply Lf; intros; discriminate
    end.
  split; dk Lf.
Qed.
Example C40_ex : well_keyed (VDict false ex_p) /\ well_keyed (VDict false ex_cell) /\
  predict (fun l => hd [] l) (fun _ => []) ex_p ex_cell ($"a") =
  Ok (map (fun s => $s) ["Si_EXT_pbe_OTF.beta"; "Si_EXT_pbe_OTF.econv"; "Si_EXT_pbe_OTF.gamma"; "Si_EXT_pbe_OTF.pwave"; "Si_EXT_pbe_OTF.usp";
        "a.*.drho2m"; "a.*.drhom"; "a.*.wf2m"; "a.*.wfm"; "a.castep"; "a.castep_bin"; "a.md";
        "a_O_O.pot"; "a_Si_O.pot"; "a_Si_Si.pot"; "a_farm000.castep"; "a_farm001.castep"]%string).
Proof. split; [apply ex_keyed|]. split; [apply ex_keyed|]. vmr. Qed.
(** The empty input is sensible. *)
Example C40_answers_ex : sensible [] [].
Proof.
  assert (N : forall k d, setting [] k d d) by (intros k d; right; auto).
  constructor.
  - exists "singlepoint"%string. split; [|split; discriminate]. exists ($"SINGLEPOINT"), ($"SINGLEPOINT"). split; [apply N|]. split; [apply same_word_iff; vmr|cbn; tauto].
  - eexists. apply N.
  - eexists. apply N.
  - exists (VInt 0), (inject_Z 0). split; [apply N|]. left. eauto.
  - exists []. split; [exists false; apply N|]. split; [intros k _; exists [], false; apply N|].
    intros g (b & [[]|[_ K]]). injection K as _ ->. exists VNone. split; [apply N|]. left. now left.
  - intros (v & [[]|[_ ->]] & K). exfalso. apply K. now left.
  - exists (VStr ($"ALL")). split; [apply N|]. right. right. exists ($"ALL"), "ALL"%string. cbn. auto.
  - intros _. split; [exists VNone; auto|]. repeat split; try (eexists; apply N); [exists (VInt 0), (inject_Z 0)|exists (VInt 1), (inject_Z 1)]; (split; [apply N|left; eauto]).
  - intros (t & w & Hs & Hw & Hi). exfalso. destruct Hs as [[]|[_ K]]. injection K as ->. apply same_word_iff in Hw. subst w.
    unfold task_names in Hi. cbn [map In fst snd] in Hi. repeat (destruct Hi as [Hi|Hi]; [discriminate Hi|]). destruct Hi.
  - exists [], false. split; [apply N|]. intros k v [].
  - exists []. split; [exists false; apply N|]. intros k v [].
Qed.
