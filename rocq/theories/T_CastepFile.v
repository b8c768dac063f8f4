(** Property theorems C79 and C80: what is asked of a .castep file, and the lines that say nothing. *)
From Verif Require Import PyBase PyFacts PyVal Regex NumSpec SpecLine SpecTable SpecStr SpecBands SpecDict SpecMd SpecCastep
  BandsFacts TextParsersFacts CastepFile SpecCastepFile CastepFileFacts CastepFilter QuietFacts ExampleTools ExampleTools2.
From Verif Require Import T_Castep.
Local Open Scope list_scope.
Local Open Scope nat_scope.

(** C79.  Every entry of every run is one of those asked for. *)
Theorem C79_filters_respected iter F ls v : parse_castep_file iter F ls = Ok v ->
  exists rs, v = VList (map (VDict true) rs) /\ Forall (Forall (permitted F)) rs.
Proof. exact (filters_respected iter F ls v). Qed.
Print Assumptions C79_filters_respected.
Definition mixed_file : list str :=
  lns [" Compiled for linux_x86_64_ifort on Wed, 17 Oct 2012"; " Code version: 7.0"; ""; "                           Unit Cell"; " a = 5.43 alpha = 60.0"; ""; ""; "";
       "Final energy, E             =  -855.4591023999     eV"; " ************ Forces ************"; " * Si              1      0.1    -0.2      0.3 *"; " *****"]%string.
Definition names_of (v : pyval) : list (list key) :=
  match v with VList rs => map (fun r => match r with VDict _ d => map fst d | _ => [] end) rs | _ => [] end.
Example C79_filters_respected_ex :
  rmap names_of (parse_castep_file (fun l => l) FULL mixed_file) = Ok [[name "build_info"; name "initial_cell"; name "energies"; name "forces"]] /\
  rmap names_of (parse_castep_file (fun l => l) [F_CELL] mixed_file) = Ok [[name "initial_cell"; name "energies"]].
Proof. split; vmr. Qed.
(** Not asked for: kept out *)
Example C79_permitted_ex : ~ permitted [F_CELL] (name "forces", VDict true []).
Proof.
  intros [(n & alts & fs & E & I & J & A)|[[(f & E) _]|[[E|[]] _]]]; [|discriminate|discriminate].
  assert (n = "forces"%string) as ->. { injection E as E. unfold text_of in E. rewrite <- (string_of_list_ascii_of_string n), <- E. reflexivity. }
  cbn in I. repeat (destruct I as [I|I]; [try discriminate|]); [|contradiction]. injection I as <-. destruct J as [<-|[]]. destruct (A F_FORCE); [now left|discriminate|assumption].
Qed.

(** C80.  Lines that have none of the phrases looked for say nothing. *)
Theorem C80_quiet_lines iter F qs ls : Forall quiet qs -> parse_castep_file iter F (qs ++ ls) = parse_castep_file iter F ls.
Proof. exact (quiet_first iter F qs ls). Qed.
Print Assumptions C80_quiet_lines.
Definition mentionsb (w : string) (l : str) : bool := contains ($w) l.
Definition holdsb (p : bool * string) (l : str) : bool := mentionsb (snd p) (if fst p then map lower_c l else l).
Lemma quiet_b l : forallb (fun p => negb (holdsb p l)) phrases = true -> quiet l.
Proof.
  intros H. apply Forall_forall. intros p I Q. rewrite forallb_forall in H. specialize (H p I). apply negb_true_iff in H.
  unfold holds in Q. apply mentions_iff in Q. unfold holdsb, mentionsb in H. congruence.
Qed.
Example C80_quiet_lines_ex : Forall quiet (lns ["  |      CCC   AA    SSS  TTTTT  EEEEE  PPPP        |"; ""; " This version was compiled for x86"; "Calculation not parallelised."]%string).
Proof. unfold lns. cbn [map]. repeat (apply Forall_cons; [apply quiet_b; vmr|]). apply Forall_nil. Qed.
