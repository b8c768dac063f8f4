(** Facts about [FileWrapper.v] against [SpecText.v]. *)
From Verif Require Import PyBase PyFacts SpecText FileWrapper FileWrapperObs.
Local Open Scope list_scope.
Local Open Scope nat_scope.

(** ** Cutting a text into lines *)
Lemma LF_newline : LF = newline.
Proof. reflexivity. Qed.

Fixpoint lines (s : str) : list str :=
  match s with
  | [] => []
  | c :: s' => if Ascii.eqb c newline then [c] :: lines s'
               else match lines s' with [] => [[c]] | l :: ls => (c :: l) :: ls end
  end.

Lemma take_line_cat s : fst (take_line s) ++ snd (take_line s) = s.
Proof.
  induction s as [|c s IH]; cbn; [reflexivity|].
  destruct (Ascii.eqb c newline); [reflexivity|]. destruct (take_line s) as [l r]; cbn in *. congruence.
Qed.

Lemma take_line_nonempty s : s <> [] -> fst (take_line s) <> [].
Proof.
  destruct s as [|c s]; cbn; [congruence|]. intros _.
  destruct (Ascii.eqb c newline); [discriminate|]. destruct (take_line s); discriminate.
Qed.

Lemma lines_take s : s <> [] -> lines s = fst (take_line s) :: lines (snd (take_line s)).
Proof.
  induction s as [|c s IH]; [congruence|]. intros _. cbn [lines take_line].
  destruct (Ascii.eqb c newline); [reflexivity|].
  destruct s as [|c' s]; [reflexivity|]. rewrite IH by discriminate.
  destruct (take_line (c' :: s)) as [l r]; reflexivity.
Qed.

Lemma lines_concat s : concat (lines s) = s.
Proof.
  induction s as [|c s IH]; cbn; [reflexivity|].
  destruct (Ascii.eqb c newline); cbn; [congruence|].
  destruct (lines s) as [|l ls]; cbn in *; congruence.
Qed.

Lemma lines_nonempty s : Forall (fun l => l <> []) (lines s).
Proof.
  induction s as [|c s IH]; cbn; [constructor|].
  destruct (Ascii.eqb c newline); [constructor; [discriminate|exact IH]|].
  destruct (lines s); constructor; try discriminate; auto. now inversion IH.
Qed.

Lemma lines_suffix : forall k s, lines (concat (skipn k (lines s))) = skipn k (lines s).
Proof.
  induction k as [|k IH]; intros s; [cbn; now rewrite lines_concat|].
  destruct s as [|c s]; [reflexivity|].
  rewrite (lines_take (c :: s)) by discriminate. cbn [skipn]. apply IH.
Qed.

Lemma lines_spec s : lines_of (lines s) s.
Proof.
  induction s as [|c s IH]; cbn; [constructor|].
  destruct (Ascii.eqb_spec c newline) as [->|Hc].
  - change (newline :: s) with ([newline] ++ s). constructor; [|exact IH]. exists []; auto.
  - destruct (lines s) as [|l ls] eqn:E.
    + inversion IH; subst. apply lines_last; [discriminate|].
      intros [H|[]]; rewrite LF_newline in H; congruence.
    + inversion IH as [|l' Hne Hnl|l' ls' t Hl Hls]; subst.
      * apply lines_last; [discriminate|]. intros [H|H]; [rewrite LF_newline in H; congruence|auto].
      * change (c :: l ++ t) with ((c :: l) ++ t). constructor; [|exact Hls].
        destruct Hl as (w & -> & Hw). exists (c :: w). split; [reflexivity|].
        intros [H|H]; [rewrite LF_newline in H; congruence|auto].
Qed.

Lemma lines_of_unique ls t : lines_of ls t -> lines t = ls.
Proof.
  assert (A : forall l t, ~ In LF l -> lines (l ++ newline :: t) = (l ++ [newline]) :: lines t).
  { induction l as [|c l IH]; intros t0 H; cbn [app lines].
    - reflexivity.
    - destruct (Ascii.eqb_spec c newline) as [->|Hc]; [elim H; left; reflexivity|].
      rewrite IH by (intros Hin; apply H; now right). reflexivity. }
  assert (B : forall l, l <> [] -> ~ In LF l -> lines l = [l]).
  { induction l as [|c l IH]; intros Hne H; [congruence|]. cbn [lines].
    destruct (Ascii.eqb_spec c newline) as [->|Hc]; [elim H; left; reflexivity|].
    destruct l as [|c' l]; [reflexivity|]. rewrite IH; [reflexivity|discriminate|].
    intros Hin; apply H; now right. }
  induction 1 as [|l Hne Hl|l ls t (w & -> & Hw) _ IH]; [reflexivity|now apply B|].
  rewrite <- app_assoc. cbn [app]. rewrite LF_newline, A by exact Hw. now rewrite IH.
Qed.

(** ** FileWrapper refines the cursor *)
Definition offset (ls : list str) (k : nat) : nat := length (concat (firstn k ls)).

(** [fails]: failed [next] calls so far. *)
Definition fw_inv (f : fwrap) (c : cursor) (fails : nat) : Prop :=
  let ls := lines (fw_content f) in
  c_idx c <= length ls /\
  fw_off f = offset ls (c_idx c) /\
  (if c_undo c then 0 < c_idx c /\ fw_pos f = offset ls (c_idx c - 1) else fw_pos f = fw_off f) /\
  fw_lineno f = Z.of_nat (c_idx c + fails).

Lemma skipn_offset s k : skipn (offset (lines s) k) s = concat (skipn k (lines s)).
Proof.
  rewrite <- (lines_concat s) at 2. rewrite <- (firstn_skipn k (lines s)) at 2.
  rewrite concat_app. unfold offset. rewrite skipn_app, skipn_all, Nat.sub_diag. reflexivity.
Qed.

Lemma readline_offset s k :
  readline s (offset (lines s) k) = match nth_error (lines s) k with Some l => l | None => [] end.
Proof.
  unfold readline. rewrite skipn_offset.
  destruct (nth_error (lines s) k) as [l|] eqn:E.
  - assert (H : skipn k (lines s) = l :: skipn (S k) (lines s)).
    { now apply skipn_nth. }
    pose proof (lines_suffix k s) as HS.
    destruct (concat (skipn k (lines s))) as [|c t] eqn:Ec.
    + rewrite H in HS. discriminate.
    + rewrite lines_take in HS by discriminate. rewrite H in HS. now injection HS.
  - apply nth_error_None in E. rewrite skipn_all2 by exact E. reflexivity.
Qed.

Lemma offset_S ls k l : nth_error ls k = Some l -> offset ls (S k) = offset ls k + length l.
Proof.
  intros H. unfold offset. rewrite (firstn_S_nth ls k l H), concat_app, app_length. cbn. now rewrite app_nil_r.
Qed.

Lemma nth_line_nonempty s k l : nth_error (lines s) k = Some l -> l <> [].
Proof.
  intros H. pose proof (lines_nonempty s) as F. rewrite Forall_forall in F. apply F.
  eapply nth_error_In; eassumption.
Qed.

Definition next_fails (f : fwrap) (o : op) (fails : nat) : nat :=
  match o with
  | Next => match fst (fw_step Next f) with Stop => S fails | _ => fails end
  | Rewind => fails
  end.

Lemma fw_step_ok f c fails o :
  fw_inv f c fails ->
  fst (fw_step o f) = fst (cursor_step (lines (fw_content f)) o c) /\
  fw_content (snd (fw_step o f)) = fw_content f /\
  fw_inv (snd (fw_step o f)) (snd (cursor_step (lines (fw_content f)) o c)) (next_fails f o fails).
Proof.
  intros (Hi & Ho & Hp & Hl). destruct o.
  - unfold next_fails, fw_step, fw_next, cursor_step. rewrite Ho, readline_offset. 
    destruct (nth_error (lines (fw_content f)) (c_idx c)) as [l|] eqn:E.
    + pose proof (nth_line_nonempty _ _ _ E) as Hne.
      destruct l as [|x l]; [congruence|]. cbn [isempty fst snd to_outcome].
      split; [reflexivity|split; [reflexivity|]].
      unfold fw_inv. cbn [fw_content fw_off fw_pos fw_lineno c_idx c_undo].
      split; [|split; [|split; [split|]]].
      * apply nth_error_Some. rewrite E; discriminate.
      * symmetry. now apply offset_S.
      * lia.
      * now rewrite Nat.sub_succ, Nat.sub_0_r.
      * rewrite Hl. lia.
    + cbn [isempty fst snd to_outcome]. split; [reflexivity|split; [reflexivity|]].
      unfold fw_inv. cbn [fw_content fw_off fw_pos fw_lineno c_idx c_undo length].
      rewrite Nat.add_0_r. split; [exact Hi|split; [reflexivity|split; [reflexivity|]]]. rewrite Hl. lia.
  - unfold next_fails, fw_step, fw_rewind, cursor_step. destruct (c_undo c) eqn:Eu.
    + destruct Hp as [Hpos Hp].
      assert (Hne : fw_off f <> fw_pos f).
      { rewrite Ho, Hp. destruct (nth_error (lines (fw_content f)) (c_idx c - 1)) as [l|] eqn:E.
        - pose proof (offset_S _ _ _ E) as HS. replace (S (c_idx c - 1)) with (c_idx c) in HS by lia.
          pose proof (nth_line_nonempty _ _ _ E). destruct l; [congruence|cbn in HS; lia].
        - apply nth_error_None in E. lia. }
      apply Nat.eqb_neq in Hne. rewrite Hne. cbn. split; [reflexivity|split; [reflexivity|]].
      unfold fw_inv. cbn [fw_content fw_off fw_pos fw_lineno c_idx c_undo].
      split; [lia|split; [exact Hp|split; [reflexivity|]]]. rewrite Hl. lia.
    + rewrite Hp, Nat.eqb_refl. cbn [fst snd to_outcome]. split; [reflexivity|split; [reflexivity|]].
      unfold fw_inv. rewrite Eu. auto.
Qed.

Lemma fw_inv_open s : fw_inv (fw_open s) {| c_idx := 0; c_undo := false |} 0.
Proof. unfold fw_inv; cbn. repeat split; lia. Qed.

Lemma fw_run_ok : forall ops f c fails,
  fw_inv f c fails ->
  fst (run fw_step ops f) = fst (run (cursor_step (lines (fw_content f))) ops c) /\
  fw_content (snd (run fw_step ops f)) = fw_content f /\
  fw_inv (snd (run fw_step ops f)) (snd (run (cursor_step (lines (fw_content f))) ops c))
         (fails + stops (fst (run fw_step ops f))).
Proof.
  induction ops as [|o ops IH]; intros f c fails H; cbn [run].
  - cbn [fst snd]. unfold stops, count; cbn. rewrite Nat.add_0_r. auto.
  - pose proof (fw_step_ok f c fails o H) as (H1 & H2 & H3).
    remember (next_fails f o fails) as fails' eqn:Ef.
    destruct (fw_step o f) as [r f1] eqn:Es. destruct (cursor_step (lines (fw_content f)) o c) as [r' c1].
    cbn [fst snd] in *. subst r'.
    specialize (IH f1 c1 fails' H3). rewrite H2 in IH. destruct IH as (I1 & I2 & I3).
    destruct (run fw_step ops f1) as [rs f2]. destruct (run (cursor_step _) ops c1) as [rs' c2].
    cbn [fst snd] in *. subst rs'. split; [reflexivity|split; [exact I2|]].
    assert (E : fails + stops (r :: rs) = fails' + stops rs).
    { subst fails'. unfold next_fails. unfold stops, count. cbn [filter].
      destruct o.
      - rewrite Es. cbn [fst]. destruct r; cbn [length]; lia.
      - cbn [fw_step] in Es. destruct (fw_rewind f) as [x y] eqn:Er.
        unfold fw_rewind in Er. destruct (_ =? _); inversion Er; subst x; cbn in Es;
          injection Es as <- _; reflexivity. }
    rewrite E. exact I3.
Qed.

(** ** Block refines the integer cursor *)
Definition b_at (b : block) (i : nat) : Prop := b_i b = (Z.of_nat i - 1)%Z.

Lemma b_next_ok b i : b_at b i ->
  fst (b_next b) = match nth_error (b_data b) i with Some l => Ok l | None => Err StopIteration end /\
  b_data (snd (b_next b)) = b_data b /\ b_base (snd (b_next b)) = b_base b /\ b_at (snd (b_next b)) (S i).
Proof.
  unfold b_at, b_next. intros ->. replace (Z.of_nat i - 1 + 1)%Z with (Z.of_nat i) by lia.
  rewrite Nat2Z.id. destruct (Z.leb_spec (Z.of_nat (length (b_data b))) (Z.of_nat i)) as [H|H].
  - replace (nth_error (b_data b) i) with (@None str) by (symmetry; apply nth_error_None; lia).
    cbn [fst snd b_data b_i b_base]. repeat split; lia.
  - destruct (nth_error (b_data b) i) eqn:E; [cbn [fst snd b_data b_i b_base]; repeat split; lia|].
    apply nth_error_None in E. lia.
Qed.

Lemma b_step_ok b i o : b_at b i ->
  fst (b_step o b) = fst (icursor_step (b_data b) o i) /\
  b_data (snd (b_step o b)) = b_data b /\ b_base (snd (b_step o b)) = b_base b /\
  b_at (snd (b_step o b)) (snd (icursor_step (b_data b) o i)).
Proof.
  intros H. destruct o; cbn [b_step icursor_step].
  - destruct (b_next_ok b i H) as (H1 & H2 & H3 & H4). destruct (b_next b) as [r b'].
    cbn [fst snd] in *. subst r. destruct (nth_error (b_data b) i); cbn; auto.
  - unfold b_at, b_rewind in *. rewrite H. destruct i as [|i]; cbn [fst snd].
    + cbn. auto.
    + replace (Z.of_nat (S i) - 1 <? 0)%Z with false by (symmetry; apply Z.ltb_ge; lia).
      cbn [fst snd to_outcome b_data b_i b_base]. repeat split. lia.
Qed.

Lemma b_run_ok : forall ops b i, b_at b i ->
  fst (run b_step ops b) = fst (run (icursor_step (b_data b)) ops i) /\
  b_data (snd (run b_step ops b)) = b_data b /\ b_base (snd (run b_step ops b)) = b_base b /\
  b_at (snd (run b_step ops b)) (snd (run (icursor_step (b_data b)) ops i)).
Proof.
  induction ops as [|o ops IH]; intros b i H; cbn [run]; [auto|].
  destruct (b_step_ok b i o H) as (H1 & H2 & H3 & H4).
  destruct (b_step o b) as [r b1]. destruct (icursor_step (b_data b) o i) as [r' i1]. cbn [fst snd] in *.
  subst r'. specialize (IH b1 i1 H4). rewrite H2, H3 in IH. destruct IH as (I1 & I2 & I3 & I4).
  destruct (run b_step ops b1) as [rs b2]. destruct (run _ ops i1) as [rs' i2]. cbn [fst snd] in *.
  subst rs'. auto.
Qed.

(** ** Sources *)

(** Internal counterpart, used in proofs. *)
Definition src_rest (s : source) : list str :=
  match s with
  | SFile f => lines (skipn (fw_off f) (fw_content f))
  | SBlock b => skipn (Z.to_nat (b_i b + 1)) (b_data b)
  end.
Definition src_wf (s : source) : Prop :=
  match s with
  | SFile f => exists c fails, fw_inv f c fails
  | SBlock b => (-1 <= b_i b)%Z
  end.

Lemma src_next_ok s : src_wf s ->
  src_wf (snd (src_next s)) /\
  match src_rest s with
  | [] => fst (src_next s) = Err StopIteration /\ src_rest (snd (src_next s)) = []
  | l :: ls => fst (src_next s) = Ok l /\ src_rest (snd (src_next s)) = ls /\
               src_lineno (snd (src_next s)) = (src_lineno s + 1)%Z
  end.
Proof.
  destruct s as [f|b]; cbn [src_wf src_rest src_next].
  - intros (cc & fails & HI). pose proof (fw_step_ok f cc fails Next HI) as (_ & _ & HI').
    assert (HW : src_wf (snd (let (r, f') := fw_next f in (r, SFile f')))).
    { cbn [fw_step] in HI'. destruct (fw_next f) as [r f']. cbn [snd] in HI' |- *. cbn [src_wf]. eauto. }
    split; [exact HW|]. clear HI' HW.
    destruct HI as (Hk & Ho & _). set (k := c_idx cc) in *. rewrite Ho, skipn_offset, lines_suffix.
    unfold fw_next. rewrite Ho, readline_offset.
    destruct (nth_error (lines (fw_content f)) k) as [l|] eqn:E.
    + pose proof (nth_line_nonempty _ _ _ E) as Hne.
      assert (Hs : skipn k (lines (fw_content f)) = l :: skipn (S k) (lines (fw_content f))).
      { now apply skipn_nth. }
      rewrite Hs. destruct l as [|x l]; [congruence|]. cbn [isempty fst snd src_wf src_rest fw_content fw_off].
      rewrite <- (offset_S _ _ _ E), skipn_offset, lines_suffix.
      split; [reflexivity|split; [reflexivity|reflexivity]].
    + apply nth_error_None in E. rewrite (skipn_all2 _ E). cbn [isempty fst snd src_wf src_rest fw_content fw_off length].
      rewrite Nat.add_0_r. split; [reflexivity|].
      rewrite skipn_offset, lines_suffix. now apply skipn_all2.
  - intros Hb. assert (HA : b_at b (Z.to_nat (b_i b + 1))) by (unfold b_at; lia).
    destruct (b_next_ok _ _ HA) as (H1 & H2 & H3 & H4). destruct (b_next b) as [r b'].
    cbn [fst snd src_wf src_rest] in *. unfold b_at in H4.
    split; [lia|]. rewrite H2, H4.
    replace (Z.to_nat (Z.of_nat (S (Z.to_nat (b_i b + 1))) - 1 + 1)) with (S (Z.to_nat (b_i b + 1))) by lia.
    destruct (nth_error (b_data b) (Z.to_nat (b_i b + 1))) as [l|] eqn:E.
    + assert (Hs : skipn (Z.to_nat (b_i b + 1)) (b_data b) = l :: skipn (S (Z.to_nat (b_i b + 1))) (b_data b)).
      { now apply skipn_nth. }
      rewrite Hs. split; [exact H1|split; [reflexivity|]]. cbn [src_lineno]. unfold b_lineno. rewrite H3, H4. lia.
    + apply nth_error_None in E. rewrite (skipn_all2 _ E). split; [exact H1|]. apply skipn_all2. lia.
Qed.

Lemma src_skip_ok : forall k s, src_wf s ->
  src_wf (src_skip k s) /\ src_rest (src_skip k s) = skipn k (src_rest s).
Proof.
  induction k as [|k IH]; intros s H; cbn [src_skip]; [auto|].
  destruct (src_next_ok s H) as [H1 H2]. destruct (IH _ H1) as [H3 H4]. split; [exact H3|].
  rewrite H4. destruct (src_rest s) as [|l ls].
  - destruct H2 as [_ ->]. now rewrite !skipn_nil.
  - destruct H2 as (_ & -> & _). reflexivity.
Qed.

Lemma delivers_rest s : src_wf s -> delivers s (src_rest s).
Proof.
  intros H k. unfold src_out. destruct (src_skip_ok k s H) as [H1 H2].
  destruct (src_next_ok _ H1) as [_ H3]. rewrite H2 in H3.
  destruct (nth_error (src_rest s) k) as [l|] eqn:E.
  - assert (Hs : skipn k (src_rest s) = l :: skipn (S k) (src_rest s)).
    { now apply skipn_nth. }
    rewrite Hs in H3. apply H3.
  - apply nth_error_None in E. rewrite (skipn_all2 _ E) in H3. apply H3.
Qed.

Lemma delivers_unique s a b : delivers s a -> delivers s b -> a = b.
Proof.
  intros Ha Hb. apply nth_error_ext_str.
  intros k. specialize (Ha k). specialize (Hb k). rewrite Ha in Hb.
  destruct (nth_error a k), (nth_error b k); congruence.
Qed.

Lemma delivers_iff s ls : src_wf s -> (delivers s ls <-> src_rest s = ls).
Proof.
  intros H. split.
  - intros D. eapply delivers_unique; [apply delivers_rest; exact H|exact D].
  - intros <-. now apply delivers_rest.
Qed.

Lemma src_fuel_ok s : src_wf s -> length (src_rest s) < src_fuel s.
Proof.
  destruct s as [f|b]; cbn.
  - intros _. assert (L : forall t, length (lines t) <= length t).
    { intros t. rewrite <- (lines_concat t) at 2. pose proof (lines_nonempty t) as F.
      induction F as [|l ls Hl _ IH]; cbn; [lia|]. rewrite app_length. destruct l; [congruence|cbn; lia]. }
    specialize (L (skipn (fw_off f) (fw_content f))). rewrite skipn_length in L. lia.
  - intros _. rewrite skipn_length. lia.
Qed.

(** ** from_re *)
Lemma count_cons {A} (p : A -> bool) x l : count p (x :: l) = (if p x then 1 else 0) + count p l.
Proof. unfold count; cbn. destruct (p x); reflexivity. Qed.

(** Cut a list after the [n]-th element satisfying [p]. *)
Fixpoint cut (p : str -> bool) (n : nat) (ls : list str) : option (list str * list str) :=
  match ls with
  | [] => None
  | l :: ls' => if p l then match n with
                            | 1 => Some ([l], ls')
                            | _ => option_map (fun x => (l :: fst x, snd x)) (cut p (n - 1) ls')
                            end
                else option_map (fun x => (l :: fst x, snd x)) (cut p n ls')
  end.

Lemma cut_some p : forall ls n a b, 1 <= n -> cut p n ls = Some (a, b) <->
  exists pre l, a = pre ++ [l] /\ ls = pre ++ l :: b /\ p l = true /\ S (count p pre) = n.
Proof.
  induction ls as [|x ls IH]; intros n a b Hn; cbn [cut].
  - split; [discriminate|]. intros (pre & l & _ & E & _). destruct pre; discriminate.
  - destruct (p x) eqn:Ep.
    + destruct n as [|[|n]]; [lia| |].
      * split.
        -- intros E; injection E as <- <-. exists [], x. auto.
        -- intros (pre & l & -> & E & Hl & Hc). destruct pre as [|y pre].
           ++ cbn in *. injection E as <- <-. reflexivity.
           ++ cbn [app] in E. injection E as <- E. rewrite count_cons, Ep in Hc. lia.
      * replace (S (S n) - 1) with (S n) by lia. split.
        -- destruct (cut p (S n) ls) as [[a' b']|] eqn:E; cbn; [|discriminate].
           intros H; injection H as <- <-. apply IH in E as (pre & l & -> & -> & Hl & Hc); [|lia].
           exists (x :: pre), l. rewrite count_cons, Ep. repeat split; auto; lia.
        -- intros (pre & l & -> & E & Hl & Hc). destruct pre as [|y pre].
           ++ cbn in Hc. lia.
           ++ cbn [app] in E. injection E as <- E. rewrite count_cons, Ep in Hc.
              assert (H : cut p (S n) ls = Some (pre ++ [l], b)).
              { apply IH; [lia|]. exists pre, l. repeat split; auto; lia. }
              rewrite H. reflexivity.
    + split.
      * destruct (cut p n ls) as [[a' b']|] eqn:E; cbn; [|discriminate].
        intros H; injection H as <- <-. apply IH in E as (pre & l & -> & -> & Hl & Hc); [|lia].
        exists (x :: pre), l. rewrite count_cons, Ep. auto.
      * intros (pre & l & -> & E & Hl & Hc). destruct pre as [|y pre].
        -- cbn in E. injection E as <- <-. congruence.
        -- cbn [app] in E. injection E as <- E. rewrite count_cons, Ep in Hc.
           assert (H : cut p n ls = Some (pre ++ [l], b)).
           { apply IH; [lia|]. exists pre, l. auto. }
           rewrite H. reflexivity.
Qed.

Lemma cut_none p : forall ls n, 1 <= n -> (cut p n ls = None <-> count p ls < n).
Proof.
  induction ls as [|x ls IH]; intros n Hn; cbn [cut].
  - unfold count; cbn. split; [lia|reflexivity].
  - rewrite count_cons. destruct (p x) eqn:Ep.
    + destruct n as [|[|n]]; [lia| |].
      * split; [discriminate|lia].
      * replace (S (S n) - 1) with (S n) by lia. assert (I := IH (S n) ltac:(lia)).
        destruct (cut p (S n) ls); cbn [option_map]; split; intros H; try discriminate; try reflexivity.
        -- exfalso. assert (X : count p ls < S n) by lia. apply I in X. discriminate.
        -- assert (X : count p ls < S n) by now apply I. lia.
    + assert (I := IH n Hn). rewrite Nat.add_0_l.
      destruct (cut p n ls); cbn [option_map]; split; intros H; try discriminate; try reflexivity.
      * exfalso. apply I in H. discriminate.
      * now apply I.
Qed.

Lemma from_re_loop_ok endp : forall fuel n_end found acc s,
  src_wf s -> length (src_rest s) < fuel -> found < n_end ->
  exists s', src_wf s' /\
    match cut endp (n_end - found) (src_rest s) with
    | Some (a, b) => from_re_loop fuel endp n_end found acc s = (acc ++ a, true, s') /\ src_rest s' = b
    | None => from_re_loop fuel endp n_end found acc s = (acc ++ src_rest s, false, s') /\ src_rest s' = []
    end.
Proof.
  induction fuel as [|fuel IH]; intros n_end found acc s Hwf Hf Hn; [lia|]. cbn [from_re_loop].
  destruct (src_next_ok s Hwf) as [Hwf' Hnx]. destruct (src_next s) as [r s1]. cbn [fst snd] in *.
  destruct (src_rest s) as [|l ls] eqn:Er.
  - destruct Hnx as [-> Hr]. exists s1. cbn [cut]. rewrite app_nil_r. auto.
  - destruct Hnx as (-> & Hr & _). cbn [length] in Hf. cbn [cut]. destruct (endp l) eqn:El.
    + destruct (Nat.eqb_spec (S found) n_end) as [Heq|Hne].
      * replace (n_end - found) with 1 by lia. exists s1. auto.
      * destruct (IH n_end (S found) (acc ++ [l]) s1) as (s' & Hs' & HR); auto; [rewrite Hr; lia|lia|].
        exists s'. split; [exact Hs'|]. rewrite Hr in HR.
        replace (n_end - found - 1) with (n_end - S found) by lia.
        destruct (n_end - found) as [|[|k]] eqn:Ek; [lia|lia|].
        destruct (cut endp (n_end - S found) ls) as [[a b]|]; cbn [option_map fst snd];
          destruct HR as [HR1 HR2]; rewrite HR1, <- app_assoc; auto.
    + destruct (IH n_end found (acc ++ [l]) s1) as (s' & Hs' & HR); auto; [rewrite Hr; lia|].
      exists s'. split; [exact Hs'|]. rewrite Hr in HR.
      destruct (cut endp (n_end - found) ls) as [[a b]|]; cbn [option_map fst snd];
        destruct HR as [HR1 HR2]; rewrite HR1, <- app_assoc; auto.
Qed.

Theorem from_re_ok init s startp endp n_end eof :
  src_wf s -> 1 <= n_end -> startp init = true ->
  exists s', src_wf s' /\
    match cut endp n_end (src_rest s) with
    | Some (a, b) => from_re init s startp endp n_end eof = (Ok (new_block (Some s) (init :: a)), s')
                     /\ src_rest s' = b
    | None => from_re init s startp endp n_end eof =
                ((if eof then Ok (new_block (Some s) (init :: src_rest s)) else Err OSError), s')
              /\ src_rest s' = []
    end.
Proof.
  intros Hwf Hn Hs. unfold from_re. rewrite Hs. cbn [negb].
  destruct (from_re_loop_ok endp (src_fuel s) n_end 0 [init] s Hwf (src_fuel_ok s Hwf) Hn) as (s' & Hs' & HR).
  rewrite Nat.sub_0_r in HR. exists s'. split; [exact Hs'|].
  destruct (cut endp n_end (src_rest s)) as [[a b]|]; destruct HR as [-> HR].
  - cbn. auto.
  - cbn [orb app]. destruct eof; auto.
Qed.

(** ** get_lines *)
Lemma get_lines_loop_ok : forall fuel n i acc s,
  src_wf s -> length (src_rest s) < fuel -> i <= S n ->
  exists s', src_wf s' /\
    if S n - i <? length (src_rest s)
    then get_lines_loop fuel n i acc s = (acc ++ firstn (S n - i) (src_rest s), true, s') /\
         src_rest s' = skipn (S (S n - i)) (src_rest s)
    else get_lines_loop fuel n i acc s = (acc ++ src_rest s, false, s') /\ src_rest s' = [].
Proof.
  induction fuel as [|fuel IH]; intros n i acc s Hwf Hf Hi; [lia|]. cbn [get_lines_loop].
  destruct (src_next_ok s Hwf) as [Hwf' Hnx]. destruct (src_next s) as [r s1]. cbn [fst snd] in *.
  destruct (src_rest s) as [|l ls] eqn:Er.
  - destruct Hnx as [-> Hr]. exists s1. cbn [length]. rewrite app_nil_r.
    replace (S n - i <? 0) with false by (symmetry; apply Nat.ltb_ge; lia). auto.
  - destruct Hnx as (-> & Hr & _). cbn [length] in Hf |- *.
    destruct (Nat.ltb_spec n i) as [Hlt|Hge].
    + replace (S n - i) with 0 by lia. exists s1. cbn [firstn skipn]. rewrite app_nil_r.
      replace (0 <? S (length ls)) with true by reflexivity. auto.
    + destruct (IH n (S i) (acc ++ [l]) s1) as (s' & Hs' & HR); auto; [rewrite Hr; lia|lia|].
      exists s'. split; [exact Hs'|]. rewrite Hr in HR.
      replace (S n - i) with (S (S n - S i)) by lia.
      replace (S (S n - S i) <? S (length ls)) with (S n - S i <? length ls) by reflexivity.
      cbn [firstn skipn]. destruct (S n - S i <? length ls); destruct HR as [HR1 HR2];
        rewrite HR1, <- app_assoc; auto.
Qed.

Theorem get_lines_ok s n eof :
  src_wf s ->
  exists s', src_wf s' /\
    if n <? length (src_rest s)
    then get_lines s n eof = (Ok (new_block (Some s) (firstn n (src_rest s))), s') /\
         src_rest s' = skipn (S n) (src_rest s)
    else get_lines s n eof =
           ((if eof then Ok (new_block (Some s) (src_rest s)) else Err OSError), s') /\ src_rest s' = [].
Proof.
  intros Hwf. unfold get_lines.
  destruct (get_lines_loop_ok (src_fuel s) n 1 [] s Hwf (src_fuel_ok s Hwf)) as (s' & Hs' & HR); [lia|].
  replace (S n - 1) with n in HR by lia. exists s'. split; [exact Hs'|].
  destruct (n <? length (src_rest s)); destruct HR as [-> HR]; cbn [app orb].
  - auto.
  - destruct eof; auto.
Qed.

(** ** Reachable sources are well formed *)
Lemma src_rewind_wf s : src_wf s -> src_wf (snd (src_rewind s)).
Proof.
  destruct s as [f|b]; cbn [src_wf src_rewind].
  - intros (c & fails & HI). pose proof (fw_step_ok f c fails Rewind HI) as (_ & _ & HI').
    cbn [fw_step] in HI'. destruct (fw_rewind f) as [r f']. cbn [snd src_wf] in *. eauto.
  - intros H. unfold b_rewind. destruct (Z.ltb_spec (b_i b) 0); cbn; lia.
Qed.

Lemma reachable_wf s : reachable s -> src_wf s.
Proof.
  induction 1 as [text|p d|fore back b _ IH|s _ IH|s _ IH].
  - cbn. eexists _, _. apply fw_inv_open.
  - cbn. lia.
  - exact IH.
  - now apply src_next_ok.
  - now apply src_rewind_wf.
Qed.

Lemma run_src_file ops : forall f, reachable (SFile f) -> reachable (SFile (snd (run fw_step ops f))).
Proof.
  induction ops as [|o ops IH]; intros f H; cbn [run]; [exact H|].
  destruct (fw_step o f) as [r f1] eqn:E.
  assert (H1 : reachable (SFile f1)).
  { destruct o; cbn [fw_step] in E.
    - pose proof (R_next _ H) as R. cbn [src_next] in R. destruct (fw_next f). injection E as _ <-. exact R.
    - pose proof (R_rewind _ H) as R. cbn [src_rewind] in R. destruct (fw_rewind f). injection E as _ <-. exact R. }
  specialize (IH f1 H1). destruct (run fw_step ops f1). exact IH.
Qed.

(** ** The lines delivered by opened files and new blocks *)
Lemma delivers_file text ls : lines_of ls text -> delivers (SFile (fw_open text)) ls.
Proof.
  intros H. apply lines_of_unique in H. subst ls.
  apply (delivers_rest (SFile (fw_open text))). apply reachable_wf; constructor.
Qed.
Lemma delivers_block p d : delivers (SBlock (new_block p d)) d.
Proof. apply (delivers_rest (SBlock (new_block p d))). apply reachable_wf; constructor. Qed.

(** ** C01 *)
Lemma run_nexts ls : forall n i b, i <= length ls ->
  fst (run (cursor_step ls) (repeat Next n) {| c_idx := i; c_undo := b |}) =
  map Line (firstn n (skipn i ls)) ++ repeat Stop (n - (length ls - i)).
Proof.
  induction n as [|n IH]; intros i b Hi; [reflexivity|]. cbn [repeat run cursor_step c_idx].
  destruct (nth_error ls i) as [l|] eqn:E.
  - assert (Hlt : i < length ls) by (apply nth_error_Some; rewrite E; discriminate).
    specialize (IH (S i) true Hlt). destruct (run _ _ _) as [rs s2]. cbn [fst] in *. rewrite IH.
    rewrite (skipn_nth _ _ _ E). cbn [firstn map app]. do 3 f_equal. lia.
  - apply nth_error_None in E. specialize (IH i false Hi). destruct (run _ _ _) as [rs s2]. cbn [fst] in *.
    rewrite IH, (skipn_all2 _ E), !firstn_nil. cbn [map app].
    replace (S n - (length ls - i)) with (S n) by lia. replace (n - (length ls - i)) with n by lia. reflexivity.
Qed.

Theorem iteration text : exists ls, lines_of ls text /\ (forall ls', lines_of ls' text -> ls' = ls) /\
  forall n, fst (run fw_step (repeat Next n) (fw_open text)) =
            map Line (firstn n ls) ++ repeat Stop (n - length ls).
Proof.
  exists (lines text). split; [apply lines_spec|split].
  - intros ls' H. symmetry. now apply lines_of_unique.
  - intros n. destruct (fw_run_ok (repeat Next n) _ _ _ (fw_inv_open text)) as [-> _].
    cbn [fw_content fw_open]. rewrite run_nexts by lia. rewrite Nat.sub_0_r. reflexivity.
Qed.

(** ** C02, C03 *)
Theorem histories text ls ops : lines_of ls text ->
  fst (run fw_step ops (fw_open text)) = fst (run (cursor_step ls) ops cursor0).
Proof. intros H. apply lines_of_unique in H. subst ls. apply (fw_run_ok ops _ _ _ (fw_inv_open text)). Qed.

Theorem lineno_exact text ls ops : lines_of ls text ->
  fw_lineno (snd (run fw_step ops (fw_open text))) =
  Z.of_nat (c_idx (snd (run (cursor_step ls) ops cursor0)) + stops (fst (run (cursor_step ls) ops cursor0))).
Proof.
  intros H. apply lines_of_unique in H. subst ls.
  destruct (fw_run_ok ops _ _ _ (fw_inv_open text)) as (H1 & _ & H3). destruct H3 as (_ & _ & _ & H3).
  cbn [fw_content fw_open] in *. rewrite H1 in H3. exact H3.
Qed.

(** ** C04 *)
Theorem from_re_block init s startp endp n_end eof pre l rest :
  reachable s -> delivers s (pre ++ l :: rest) ->
  startp init = true -> endp l = true -> n_end = S (count endp pre) ->
  exists b s', from_re init s startp endp n_end eof = (Ok b, s') /\
    b_data b = init :: pre ++ [l] /\ reachable (SBlock b) /\ src_wf s' /\ delivers s' rest.
Proof.
  intros HR HD Hs Hl Hn. apply reachable_wf in HR. apply delivers_iff in HD; [|exact HR].
  destruct (from_re_ok init s startp endp n_end eof HR) as (s' & Hs' & HF); [lia|exact Hs|].
  assert (C : cut endp n_end (src_rest s) = Some (pre ++ [l], rest)).
  { rewrite HD. apply cut_some; [lia|]. exists pre, l. auto. }
  rewrite C in HF. destruct HF as [HF Hr].
  exists (new_block (Some s) (init :: pre ++ [l])), s'. split; [exact HF|].
  split; [reflexivity|]. split; [constructor|]. split; [exact Hs'|]. now apply delivers_iff.
Qed.

Theorem from_re_eof init s startp endp n_end ls :
  reachable s -> delivers s ls -> startp init = true -> count endp ls < n_end ->
  (exists s', from_re init s startp endp n_end false = (Err OSError, s') /\ delivers s' []) /\
  (exists b s', from_re init s startp endp n_end true = (Ok b, s') /\ b_data b = init :: ls /\ delivers s' []).
Proof.
  intros HR HD Hs Hc. apply reachable_wf in HR. apply delivers_iff in HD; [|exact HR].
  assert (C : cut endp n_end (src_rest s) = None) by (rewrite HD; apply cut_none; lia).
  split.
  - destruct (from_re_ok init s startp endp n_end false HR) as (s' & Hs' & HF); [lia|exact Hs|].
    rewrite C in HF. destruct HF as [HF Hr]. exists s'. split; [exact HF|]. now apply delivers_iff.
  - destruct (from_re_ok init s startp endp n_end true HR) as (s' & Hs' & HF); [lia|exact Hs|].
    rewrite C in HF. destruct HF as [HF Hr]. rewrite HD in HF. eexists _, s'. split; [exact HF|].
    split; [reflexivity|]. now apply delivers_iff.
Qed.

(** ** C05 *)
Theorem get_lines_exact s ls n eof :
  reachable s -> delivers s ls -> n < length ls ->
  exists b s', get_lines s n eof = (Ok b, s') /\ b_data b = firstn n ls /\ delivers s' (skipn (S n) ls).
Proof.
  intros HR HD Hn. apply reachable_wf in HR. apply delivers_iff in HD; [|exact HR].
  destruct (get_lines_ok s n eof HR) as (s' & Hs' & HF). rewrite HD in HF.
  apply Nat.ltb_lt in Hn. rewrite Hn in HF. destruct HF as [HF Hr].
  eexists _, s'. split; [exact HF|]. split; [reflexivity|]. now apply delivers_iff.
Qed.

Theorem get_lines_eof s ls n :
  reachable s -> delivers s ls -> length ls <= n ->
  (exists s', get_lines s n false = (Err OSError, s') /\ delivers s' []) /\
  (exists b s', get_lines s n true = (Ok b, s') /\ b_data b = ls /\ delivers s' []).
Proof.
  intros HR HD Hn. apply reachable_wf in HR. apply delivers_iff in HD; [|exact HR].
  apply Nat.ltb_ge in Hn. split.
  - destruct (get_lines_ok s n false HR) as (s' & Hs' & HF). rewrite HD, Hn in HF. destruct HF as [HF Hr].
    exists s'. split; [exact HF|]. now apply delivers_iff.
  - destruct (get_lines_ok s n true HR) as (s' & Hs' & HF). rewrite HD, Hn in HF. destruct HF as [HF Hr].
    eexists _, s'. split; [exact HF|]. split; [reflexivity|]. now apply delivers_iff.
Qed.

(** ** C08 *)
Theorem from_re_source init s1 s2 ls startp endp n_end eof :
  reachable s1 -> reachable s2 -> delivers s1 ls -> delivers s2 ls -> 1 <= n_end ->
  data_of (fst (from_re init s1 startp endp n_end eof)) = data_of (fst (from_re init s2 startp endp n_end eof)) /\
  exists rest, delivers (snd (from_re init s1 startp endp n_end eof)) rest /\
               delivers (snd (from_re init s2 startp endp n_end eof)) rest.
Proof.
  intros R1 R2 D1 D2 Hn. destruct (startp init) eqn:Es.
  - apply reachable_wf in R1. apply reachable_wf in R2.
    apply delivers_iff in D1; [|exact R1]. apply delivers_iff in D2; [|exact R2].
    destruct (from_re_ok init s1 startp endp n_end eof R1 Hn Es) as (t1 & W1 & F1).
    destruct (from_re_ok init s2 startp endp n_end eof R2 Hn Es) as (t2 & W2 & F2).
    rewrite D1 in F1. rewrite D2 in F2.
    destruct (cut endp n_end ls) as [[a b]|]; destruct F1 as [-> E1]; destruct F2 as [-> E2].
    + split; [reflexivity|]. exists b. split; now apply delivers_iff.
    + split; [destruct eof; reflexivity|]. exists []. split; now apply delivers_iff.
  - unfold from_re. rewrite Es. cbn. split; [reflexivity|]. exists ls; auto.
Qed.

Theorem get_lines_source s1 s2 ls n eof :
  reachable s1 -> reachable s2 -> delivers s1 ls -> delivers s2 ls ->
  data_of (fst (get_lines s1 n eof)) = data_of (fst (get_lines s2 n eof)) /\
  exists rest, delivers (snd (get_lines s1 n eof)) rest /\ delivers (snd (get_lines s2 n eof)) rest.
Proof.
  intros R1 R2 D1 D2. apply reachable_wf in R1. apply reachable_wf in R2.
  apply delivers_iff in D1; [|exact R1]. apply delivers_iff in D2; [|exact R2].
  destruct (get_lines_ok s1 n eof R1) as (t1 & W1 & F1).
  destruct (get_lines_ok s2 n eof R2) as (t2 & W2 & F2).
  rewrite D1 in F1. rewrite D2 in F2.
  destruct (n <? length ls); destruct F1 as [-> E1]; destruct F2 as [-> E2].
  - split; [reflexivity|]. eexists. split; apply delivers_iff; eassumption || reflexivity.
  - split; [destruct eof; reflexivity|]. exists []. split; now apply delivers_iff.
Qed.

(** ** C07 *)
Lemma nexts_ok b i k : b_at b i ->
  b_at (nexts k b) (i + k) /\ b_base (nexts k b) = b_base b /\ b_data (nexts k b) = b_data b.
Proof.
  intros H. unfold nexts. destruct (b_run_ok (repeat Next k) b i H) as (_ & H2 & H3 & H4).
  split; [|auto]. replace (i + k) with (snd (run (icursor_step (b_data b)) (repeat Next k) i)); [exact H4|].
  clear. revert i. induction k as [|k IH]; intros i; cbn [repeat run]; [cbn; lia|].
  cbn [icursor_step]. specialize (IH (S i)). destruct (run _ _ (S i)). cbn [snd] in *. lia.
Qed.

Lemma file_state text ls ops : lines_of ls text ->
  let f := snd (run fw_step ops (fw_open text)) in
  let c := snd (run (cursor_step ls) ops cursor0) in
  stops (fst (run (cursor_step ls) ops cursor0)) = 0 ->
  fw_lineno f = Z.of_nat (c_idx c) /\ src_rest (SFile f) = skipn (c_idx c) ls /\ c_idx c <= length ls.
Proof.
  intros H f c Hst. pose proof (lineno_exact text ls ops H) as HL. rewrite Hst, Nat.add_0_r in HL.
  split; [exact HL|]. apply lines_of_unique in H. subst ls.
  destruct (fw_run_ok ops _ _ _ (fw_inv_open text)) as (_ & H2 & H3).
  destruct H3 as (Hi & Ho & _). cbn [fw_content fw_open] in *. fold f in H2, Hi, Ho |- *.
  split.
  - cbn [src_rest]. rewrite Ho, H2, skipn_offset, lines_suffix. reflexivity.
  - rewrite H2 in Hi. exact Hi.
Qed.

Lemma from_re_data init s startp endp n_end eof b s' :
  src_wf s -> 1 <= n_end -> startp init = true ->
  from_re init s startp endp n_end eof = (Ok b, s') ->
  exists tl, b = new_block (Some s) (init :: tl) /\ exists more, src_rest s = tl ++ more.
Proof.
  intros Hw Hn Hs H. destruct (from_re_ok init s startp endp n_end eof Hw Hn Hs) as (s2 & _ & HF).
  destruct (cut endp n_end (src_rest s)) as [[a r]|] eqn:C.
  - destruct HF as [HF _]. rewrite H in HF. injection HF as -> _. exists a. split; [reflexivity|].
    apply cut_some in C as (pre & l & -> & E & _); [|exact Hn]. exists r. rewrite E, <- app_assoc. reflexivity.
  - destruct HF as [HF _]. rewrite H in HF. destruct eof; [|discriminate]. injection HF as -> _.
    exists (src_rest s). split; [reflexivity|]. exists []. now rewrite app_nil_r.
Qed.

Lemma nth_skipn {A} (l : list A) a j : nth_error (skipn a l) j = nth_error l (a + j).
Proof. revert l; induction a as [|a IH]; intros [|x l]; cbn; auto. now destruct j. Qed.

Lemma nth_bounds (d : list str) fore n j l :
  nth_error (skipn fore (firstn n d)) j = Some l -> nth_error d (fore + j) = Some l.
Proof.
  rewrite nth_skipn. intros H. rewrite <- (firstn_skipn n d), nth_error_app1; [exact H|].
  apply nth_error_Some. rewrite H; discriminate.
Qed.

Theorem block_lineno text ls ops init startp endp n_end eof b s' fore back j l :
  lines_of ls text ->
  let f := snd (run fw_step ops (fw_open text)) in
  let c := snd (run (cursor_step ls) ops cursor0) in
  stops (fst (run (cursor_step ls) ops cursor0)) = 0 ->
  1 <= c_idx c -> nth_error ls (c_idx c - 1) = Some init ->
  1 <= n_end -> startp init = true ->
  from_re init (SFile f) startp endp n_end eof = (Ok b, s') ->
  let b' := b_remove_bounds fore back b in
  nth_error (b_data b') j = Some l ->
  exists z, b_lineno (nexts (S j) b') = Z.of_nat (S z) /\ nth_error ls z = Some l.
Proof.
  intros HL f c Hst Hidx Hinit Hn Hs HF b' Hj.
  destruct (file_state text ls ops HL Hst) as (H1 & H2 & H3). fold f c in H1, H2, H3.
  assert (HW : src_wf (SFile f)) by (apply reachable_wf, run_src_file; constructor).
  destruct (from_re_data init (SFile f) startp endp n_end eof b s' HW Hn Hs HF) as (tl & -> & more & Hm).
  assert (HA : b_at b' 0) by reflexivity.
  destruct (nexts_ok b' 0 (S j) HA) as (N1 & N2 & _). unfold b_at in N1.
  exists (c_idx c - 1 + (fore + j)). unfold b_lineno. rewrite N1, N2.
  cbn [b' b_remove_bounds b_base new_block src_lineno]. rewrite H1. split; [lia|].
  cbn [b' b_remove_bounds b_data new_block] in Hj. apply nth_bounds in Hj.
  destruct (fore + j) as [|k].
  - cbn in Hj. injection Hj as <-. rewrite Nat.add_0_r. exact Hinit.
  - cbn [nth_error] in Hj. replace (c_idx c - 1 + S k) with (c_idx c + k) by lia.
    rewrite <- nth_skipn, <- H2, Hm, nth_error_app1; [exact Hj|].
    apply nth_error_Some. rewrite Hj; discriminate.
Qed.

Theorem get_lines_lineno text ls ops n eof b s' j l :
  lines_of ls text ->
  let f := snd (run fw_step ops (fw_open text)) in
  let c := snd (run (cursor_step ls) ops cursor0) in
  stops (fst (run (cursor_step ls) ops cursor0)) = 0 ->
  get_lines (SFile f) n eof = (Ok b, s') ->
  nth_error (b_data b) j = Some l ->
  exists z, b_lineno (nexts (S j) b) = Z.of_nat z /\ nth_error ls z = Some l.
Proof.
  intros HL f c Hst HF Hj.
  destruct (file_state text ls ops HL Hst) as (H1 & H2 & H3). fold f c in H1, H2, H3.
  assert (HW : src_wf (SFile f)) by (apply reachable_wf, run_src_file; constructor).
  destruct (get_lines_ok (SFile f) n eof HW) as (s2 & _ & HG).
  assert (HB : exists d more, b = new_block (Some (SFile f)) d /\ src_rest (SFile f) = d ++ more).
  { destruct (n <? length (src_rest (SFile f))); destruct HG as [HG _]; rewrite HF in HG.
    - injection HG as -> _. exists (firstn n (src_rest (SFile f))), (skipn n (src_rest (SFile f))).
      split; [reflexivity|]. symmetry; apply firstn_skipn.
    - destruct eof; [|discriminate]. injection HG as -> _. eexists _, []. split; [reflexivity|]. now rewrite app_nil_r. }
  destruct HB as (d & more & -> & Hm).
  destruct (nexts_ok (new_block (Some (SFile f)) d) 0 (S j) eq_refl) as (N1 & N2 & _). unfold b_at in N1.
  exists (c_idx c + j). unfold b_lineno. rewrite N1, N2. cbn [new_block b_base src_lineno]. rewrite H1.
  split; [lia|]. cbn [b_data new_block] in Hj.
  rewrite <- nth_skipn, <- H2, Hm, nth_error_app1; [exact Hj|]. apply nth_error_Some. rewrite Hj; discriminate.
Qed.

Theorem lineno_partial text ls ops : lines_of ls text ->
  ~ In Stop (fst (run (cursor_step ls) ops cursor0)) ->
  fw_lineno (snd (run fw_step ops (fw_open text))) =
  Z.of_nat (c_idx (snd (run (cursor_step ls) ops cursor0))).
Proof.
  intros H HS. rewrite (lineno_exact text ls ops H).
  replace (stops (fst (run (cursor_step ls) ops cursor0))) with 0; [now rewrite Nat.add_0_r|].
  unfold stops, count. destruct (filter _ _) as [|o l] eqn:E; [reflexivity|]. exfalso.
  assert (HI : In o (o :: l)) by now left. rewrite <- E in HI. apply filter_In in HI as [HI Ho].
  destruct o; try discriminate. now apply HS.
Qed.

Theorem from_re_no_start init s startp endp n_end eof : startp init = false ->
  exists b, from_re init s startp endp n_end eof = (Ok b, s) /\ b_data b = [] /\ b_bool b = false.
Proof. intros H. unfold from_re. rewrite H. eexists. split; [reflexivity|]. auto. Qed.

Theorem from_re_block' init s startp endp n_end eof pre l rest :
  reachable s -> delivers s (pre ++ l :: rest) ->
  startp init = true -> endp l = true -> n_end = S (count endp pre) ->
  exists b s', from_re init s startp endp n_end eof = (Ok b, s') /\
    b_data b = init :: pre ++ [l] /\ delivers (SBlock b) (init :: pre ++ [l]) /\ delivers s' rest.
Proof.
  intros HR HD Hs Hl Hn. pose proof HR as HR'. apply reachable_wf in HR'. apply delivers_iff in HD; [|exact HR'].
  destruct (from_re_ok init s startp endp n_end eof HR') as (s' & Hs' & HF); [lia|exact Hs|].
  assert (C : cut endp n_end (src_rest s) = Some (pre ++ [l], rest)).
  { rewrite HD. apply cut_some; [lia|]. exists pre, l. auto. }
  rewrite C in HF. destruct HF as [HF Hr].
  exists (new_block (Some s) (init :: pre ++ [l])), s'. split; [exact HF|].
  split; [reflexivity|]. split; [apply delivers_block|]. now apply delivers_iff.
Qed.

Theorem block_histories parent data ops :
  let b := new_block parent data in
  let b' := snd (run b_step ops b) in
  fst (run b_step ops b) = fst (run (icursor_step data) ops 0) /\
  b_len b' = length data /\ b_bool b' = b_bool b /\ b_str b' = b_str b /\
  (forall k, b_getitem b' k = b_getitem b k) /\
  (forall k, k < length data -> exists l, nth_error data k = Some l /\
     b_getitem b' (Z.of_nat k) = Ok l /\ b_getitem b' (Z.of_nat k - Z.of_nat (length data)) = Ok l).
Proof.
  intros b b'. destruct (b_run_ok ops b 0 eq_refl) as (H1 & H2 & _). fold b' in H2.
  cbn [b_data b new_block] in H1, H2.
  split; [exact H1|]. unfold b_len, b_bool, b_str, b_getitem. rewrite H2.
  split; [reflexivity|split; [reflexivity|split; [reflexivity|split; [reflexivity|]]]].
  intros k Hk. destruct (nth_error data k) as [l|] eqn:E.
  2: { apply nth_error_None in E. lia. }
  exists l. split; [reflexivity|].
  assert (G : forall i, i = Z.of_nat k ->
    (if (i <? 0)%Z || (Z.of_nat (length data) <=? i)%Z then Err IndexError else nthE data (Z.to_nat i)) = Ok l).
  { intros i ->. replace (Z.of_nat k <? 0)%Z with false by (symmetry; apply Z.ltb_ge; lia).
    replace (Z.of_nat (length data) <=? Z.of_nat k)%Z with false by (symmetry; apply Z.leb_gt; lia).
    cbn [orb]. unfold nthE. now rewrite Nat2Z.id, E. }
  split.
  - replace (Z.of_nat k <? 0)%Z with false by (symmetry; apply Z.ltb_ge; lia).
    apply G; reflexivity.
  - replace (Z.of_nat k - Z.of_nat (length data) <? 0)%Z with true by (symmetry; apply Z.ltb_lt; lia).
    apply G. lia.
Qed.

Theorem file_block text ls parent : lines_of ls text ->
  reachable (SFile (fw_open text)) /\ reachable (SBlock (new_block parent ls)) /\
  delivers (SFile (fw_open text)) ls /\ delivers (SBlock (new_block parent ls)) ls.
Proof.
  intros H. split; [constructor|]. split; [constructor|]. split; [now apply delivers_file|apply delivers_block].
Qed.
