(** C92: harmonic results use the force data given to the structure. *)
From Verif Require Import ForcesModel.
From Coq Require Import List ZArith Lia.
Import ListNotations.

Section Spec.
Context {Array Dataset : Type} (produce : Dataset -> matrix3 -> Array) (number_of_atoms : Z).
Notation call := (call Array Dataset).
(** what the user gave *)
Inductive given := Constants (c : force_constants Array) | Sets (f : force_sets Dataset).
Definition gives (c : call) : option given := match c with SetConstants c => Some (Constants c) | SetSets f => Some (Sets f) | _ => None end.
(** [l] contains no call that gives force data *)
Definition quiet (l : list call) : Prop := forall c, In c l -> gives c = None.
(** the force sets have one force per atom of their supercell *)
Definition fits (f : force_sets Dataset) : Prop := force_sets_accepted (fs_natom f) (fs_supercell f) number_of_atoms = true.
(** the phonon calculation the data stand for *)
Definition stands_for (g : given) : phonon Array :=
  match g with
  | Constants c => MkPh (fc_supercell c) (fc_array c)
  | Sets f => MkPh (fs_supercell f) (produce (fs_dict f) (fs_supercell f))
  end.
(** the calculation a harmonic query uses after the calls [l] on an empty structure *)
Definition used (l : list call) : option (phonon Array) := fst (get_phonon produce number_of_atoms (run produce number_of_atoms l (new_structure None None))).
End Spec.

Section Proofs.
Context {Array Dataset : Type} (produce : Dataset -> matrix3 -> Array) (number_of_atoms : Z).
Notation used := (used produce number_of_atoms).
Notation run := (run produce number_of_atoms).
Notation get_phonon := (get_phonon produce number_of_atoms).
Notation call := (call Array Dataset).

Lemma run_app a b s : run (a ++ b) s = run b (run a s).
Proof. unfold ForcesModel.run. apply fold_left_app. Qed.
Lemma run_cons x l s : run (x :: l) s = run l (step produce number_of_atoms x s).
Proof. reflexivity. Qed.
Lemma quiet_keeps_fc (l : list call) s c : quiet l -> s_fc s = Some c -> s_fc (run l s) = Some c.
Proof.
  revert s. induction l as [|x l IH]; intros s Q H; [exact H|]. cbn. apply IH; [intros y Hy; apply Q; right; exact Hy|].
  specialize (Q x (or_introl eq_refl)). destruct x; try discriminate; cbn; [|exact H].
  unfold ForcesModel.get_phonon, get_supercell_phonon. rewrite H. cbn. exact H.
Qed.
Lemma fc_used s c : s_fc s = Some c -> fst (get_phonon s) = Some (stands_for produce (Constants c)).
Proof. intros H. unfold ForcesModel.get_phonon, get_supercell_phonon. rewrite H. reflexivity. Qed.
(** without a query the constants stay absent *)
Definition no_constants (l : list call) : Prop := forall c, In c l -> match c with SetConstants _ | Harmonic => False | _ => True end.
Lemma no_constants_fc (l : list call) s : no_constants l -> s_fc s = None -> s_fc (run l s) = None.
Proof.
  revert s. induction l as [|x l IH]; intros s Q H; [exact H|]. cbn. apply IH; [intros y Hy; apply Q; right; exact Hy|].
  specialize (Q x (or_introl eq_refl)). destruct x; cbn; try contradiction; exact H.
Qed.
Lemma sets_quiet (l : list call) f : quiet l -> fits number_of_atoms f -> forall s, s_fc s = None -> s_fs s = Some f ->
  (s_fc (run l s) = None /\ s_fs (run l s) = Some f) \/ s_fc (run l s) = Some (MkFC (produce (fs_dict f) (fs_supercell f)) (fs_supercell f)).
Proof.
  intros Q Hf. induction l as [|x l IH]; intros s Hc Hs; [left; split; assumption|].
  assert (Ql : quiet l) by (intros y Hy; apply Q; right; exact Hy). pose proof (Q x (or_introl eq_refl)) as G.
  change (run (x :: l) s) with (run l (step produce number_of_atoms x s)).
  destruct x; try discriminate; [|apply IH; assumption].
  right. apply quiet_keeps_fc; [exact Ql|]. cbn.
  unfold ForcesModel.get_phonon, get_supercell_phonon, get_force_sets. rewrite Hc, Hs. unfold fits in Hf. rewrite Hf. reflexivity.
Qed.

(** The constants given last are used by every later query, however many queries and explicit-constants calculations come in between and
    whatever happened before. *)
Theorem C92_last_constants_used : forall (before after : list call) c, quiet after ->
  used (before ++ SetConstants c :: after) = Some (stands_for produce (Constants c)).
Proof.
  intros before after c Q. unfold ForcesProps.used. rewrite run_app, run_cons. apply fc_used. apply quiet_keeps_fc; [exact Q|reflexivity].
Qed.
(** Force sets are used by every later query if no constants were given and no harmonic quantity was computed before them. *)
Theorem C92_last_sets_used_partial : forall (before after : list call) f, no_constants before -> quiet after -> fits number_of_atoms f ->
  used (before ++ SetSets f :: after) = Some (stands_for produce (Sets f)).
Proof.
  intros before after f B Q Hf. unfold ForcesProps.used. rewrite run_app, run_cons. cbn [step].
  set (s := MkSt (s_fc (run before (new_structure None None))) (Some f)).
  assert (Hc : s_fc s = None) by (apply (no_constants_fc before); [exact B|reflexivity]).
  destruct (sets_quiet after f Q Hf s Hc eq_refl) as [[H1 H2]|H].
  - unfold ForcesModel.get_phonon, get_supercell_phonon, get_force_sets. rewrite H1, H2. unfold fits in Hf. rewrite Hf. reflexivity.
  - rewrite (fc_used _ _ H). reflexivity.
Qed.
(** Force sets that do not fit are never used silently: the query ends the program. *)
Theorem C92_misfit_refused : forall (before : list call) f, no_constants before -> ~ fits number_of_atoms f -> used (before ++ [SetSets f]) = None /\
  get_supercell_phonon number_of_atoms (run (before ++ [SetSets f]) (new_structure None None)) = None.
Proof.
  intros before f B Hf. unfold ForcesProps.used. rewrite run_app, run_cons.
  unfold ForcesModel.get_phonon, get_supercell_phonon, get_force_sets. cbn [step s_fc s_fs ForcesModel.run fold_left].
  rewrite (no_constants_fc before (new_structure None None) B eq_refl). unfold fits in Hf. destruct (force_sets_accepted _ _ _); [contradiction Hf; reflexivity|split; reflexivity].
Qed.
(** The force sets given last are the ones returned, whatever constants and queries come after them; if they do not fit, asking for them ends the program. *)
Theorem C92_last_sets_returned : forall (before after : list call) f, (forall g, ~ In (SetSets g) after) ->
  let s := run (before ++ SetSets f :: after) (new_structure None None) in
  (fits number_of_atoms f -> get_force_sets number_of_atoms s = Some (Some f)) /\ (~ fits number_of_atoms f -> get_force_sets number_of_atoms s = None).
Proof.
  intros before after f N s. assert (F : s_fs s = Some f).
  { unfold s. rewrite run_app, run_cons. cbn [step]. generalize (s_fc (run before (new_structure None None))). intros c0. revert c0. clear s. induction after as [|x after IH]; intros c0; [reflexivity|]. rewrite run_cons.
    assert (N' : forall g, ~ In (SetSets g) after) by (intros g H; apply (N g); right; exact H). destruct x as [c|g| |c]; cbn [step s_fs s_fc].
    - apply IH. exact N'.
    - exfalso. apply (N g). left. reflexivity.
    - unfold ForcesModel.get_phonon. destruct (get_supercell_phonon _ _); cbn [snd]; [|apply IH; exact N']. cbn [s_fc]. destruct c0; cbn [snd]; [apply IH; exact N'|]. destruct (get_force_sets _ _) as [[h|]|]; cbn [snd s_fs]; apply IH; exact N'.
    - apply IH. exact N'. }
  unfold get_force_sets. rewrite F. unfold fits. destruct (force_sets_accepted _ _ _); split; intros H; try reflexivity; [contradiction H; reflexivity|discriminate].
Qed.
(** A calculation with explicit constants uses those constants with their own supercell and leaves every later query as it was. *)
Theorem C92_explicit_constants : forall (before after : list call) c, get_phonon_with c = stands_for produce (Constants c) /\ used (before ++ With c :: after) = used (before ++ after).
Proof. intros before after c. split; [reflexivity|]. unfold ForcesProps.used. rewrite !run_app, run_cons. reflexivity. Qed.
(** Refuted in general: force sets given after a harmonic quantity was computed from other force sets, or after constants, are never used,
    not even checked. *)
Theorem C92_new_sets_ignored_refuted : forall (before after : list call) f g c, quiet after ->
  (no_constants before -> fits number_of_atoms f -> used (before ++ [SetSets f; Harmonic; SetSets g] ++ after) = Some (stands_for produce (Sets f))) /\
  used (before ++ [SetConstants c; SetSets g] ++ after) = Some (stands_for produce (Constants c)).
Proof.
  intros before after f g c Q. split.
  - intros B Hf. unfold ForcesProps.used. rewrite run_app. cbn [app]. rewrite !run_cons.
    set (s := run before (new_structure None None)). assert (Hc : s_fc s = None) by (apply no_constants_fc; [exact B|reflexivity]).
    apply (fc_used _ (MkFC (produce (fs_dict f) (fs_supercell f)) (fs_supercell f))). apply quiet_keeps_fc; [exact Q|]. cbn [step s_fc].
    unfold ForcesModel.get_phonon, get_supercell_phonon, get_force_sets. cbn. rewrite Hc. unfold fits in Hf. rewrite Hf. reflexivity.
  - unfold ForcesProps.used. rewrite run_app. cbn [app]. rewrite !run_cons. apply fc_used. apply quiet_keeps_fc; [exact Q|reflexivity].
Qed.
(** A query changes nothing that a later query can see: repeating it gives the same calculation. *)
Theorem C92_queries_repeatable : forall (l : list call), used (l ++ [Harmonic]) = used l.
Proof.
  intros l. unfold ForcesProps.used. rewrite run_app, run_cons. set (s := run l _). cbn [step ForcesModel.run fold_left].
  unfold ForcesModel.get_phonon at 2. destruct (get_supercell_phonon number_of_atoms s) as [cell|] eqn:E1; [|reflexivity].
  destruct (s_fc s) as [c|] eqn:E2; [reflexivity|].
  destruct (get_force_sets number_of_atoms s) as [[f|]|] eqn:E3; try reflexivity.
  unfold get_supercell_phonon in E1. rewrite E2, E3 in E1. injection E1 as <-.
  cbn. unfold ForcesModel.get_phonon, get_supercell_phonon. cbn. rewrite E2, E3. reflexivity.
Qed.
(** Without any force data a harmonic query ends the program, after any queries, and the supercell reported for the force data is the
    unit cell itself (rows 1 0 0, 0 1 0, 0 0 1); with constants given last, it is theirs. *)
Theorem C92_supercell_reported : forall (l : list call), quiet l ->
  used l = None /\ get_supercell_phonon number_of_atoms (run l (new_structure None None)) = Some (1, 0, 0, (0, 1, 0), (0, 0, 1))%Z /\
  forall before c, get_supercell_phonon number_of_atoms (run (before ++ SetConstants c :: l) (new_structure None None)) = Some (fc_supercell c).
Proof.
  intros l Q. assert (E : run l (new_structure None None) = new_structure None None).
  { induction l as [|x l IH]; [reflexivity|]. rewrite run_cons. pose proof (Q x (or_introl eq_refl)) as G.
    assert (Ex : step produce number_of_atoms x (new_structure None None) = new_structure None None) by (destruct x; try discriminate; reflexivity).
    rewrite Ex. apply IH. intros y Hy. apply Q. right. exact Hy. }
  split; [unfold ForcesProps.used; rewrite E; reflexivity|]. split; [rewrite E; reflexivity|].
  intros before c. rewrite run_app, run_cons. unfold get_supercell_phonon. erewrite quiet_keeps_fc; [|exact Q|reflexivity]. reflexivity.
Qed.
End Proofs.
Print Assumptions C92_supercell_reported.
Print Assumptions C92_last_constants_used.
Print Assumptions C92_last_sets_used_partial.
Print Assumptions C92_misfit_refused.
Print Assumptions C92_last_sets_returned.
Print Assumptions C92_explicit_constants.
Print Assumptions C92_new_sets_ignored_refuted.
Print Assumptions C92_queries_repeatable.

(** two different force sets of a 2x2x2 supercell of a two-atom cell *)
Example C92_nonvacuous :
  let cell := (2, 0, 0, (0, 2, 0), (0, 0, 2))%Z in
  let f := MkFS 1%nat 16 cell in let g := MkFS 7%nat 16 cell in
  let produce := fun (d : nat) (_ : matrix3) => d in
  fits 2 f /\ fits 2 g /\ stands_for produce (Sets f) <> stands_for produce (Sets g) /\
  used produce 2 [SetSets f; Harmonic; SetSets g] = Some (stands_for produce (Sets f)) /\
  used produce 2 [SetSets f; SetSets g; Harmonic] = Some (stands_for produce (Sets g)).
Proof. repeat split; try reflexivity. discriminate. Qed.
