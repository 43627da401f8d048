(** C82: the command line program computes what its options say. *)
From Verif Require Import QuasiModel QuasiSpec QuasiProofs QuasiMore CliModel CliSpec CliProofs.
From Coq Require Import Lia Lra.
Open Scope Z_scope.

(** Without requests for force constants or commensurate data: whatever combination of options is given, every value that is output is
    the one computed from scratch with the settings asked for on the cropped trajectory; in particular it does not depend on the other
    requests.  Frequency columns are the range asked for.  Only requested quantities are computed; the program reaches its end exactly
    when all of them can be computed, and then all of them were output. *)
Theorem C82_spectra_partial :
  forall (K : kernels), three_d K -> forall (a : args K) (p : params K) (d d' : D K),
  length (p_q K p) = 3%nat -> crop K (Some (a_n K a)) d = Some d' -> valid K a d' -> spectra_only K a ->
  let '(out, finished) := program K a p d in let now := asked K a p in
  (forall c v, In (Ev K c v) out -> value_at K a d' now c = Some v /\ wants K a c) /\
  (forall r, In (Er K r) out -> r = p_range K now) /\
  (finished = true <-> forall c, wants K a c -> value_at K a d' now c <> None) /\
  (finished = true -> forall c, wants K a c -> exists v, In (Ev K c v) out).
Proof.
  intros K H3 a p d d' Hq Hc V S. rewrite (program_ideal K H3 a p d d' Hq Hc V).
  assert (F : Forall (still K d' (asked K a p)) (all_steps K a)).
  { rewrite Forall_forall. intros [c|n|c|] Hx; cbn [still]; [| | |exact I].
    - unfold all_steps, early_steps, main_steps, write_full, write_wave, write_phonon, peak_steps, thm_steps in Hx. rewrite !in_app_iff, !in_flag, !in_app_iff, !in_flag in Hx. cbn [In] in Hx.
      repeat match goal with H : _ \/ _ |- _ => destruct H | H : _ /\ _ |- _ => destruct H end; try discriminate; contradiction.
    - unfold all_steps, early_steps, main_steps, write_full, write_wave, write_phonon, peak_steps, thm_steps in Hx. rewrite !in_app_iff, !in_flag, !in_app_iff, !in_flag in Hx. cbn [In] in Hx.
      repeat match goal with H : _ \/ _ |- _ => destruct H | H : _ /\ _ |- _ => destruct H end; try discriminate; contradiction.
    - apply wants_in in Hx. destruct S as (S1 & S2 & S3 & S4 & S5 & S6). destruct c; try reflexivity; cbn [wants] in Hx; exfalso; [destruct Hx as [_ Hx]|];
      rewrite ?S1, ?S2, ?S3, ?S4, ?S5, ?S6 in Hx; intuition discriminate. }
  destruct (ideal_still K a d' _ _ F) as (_ & I1 & I2 & I3 & I4). destruct (ideal K a d' (asked K a p) (all_steps K a)) as [out finished]. cbn [fst snd] in *.
  split; [intros c v H; destruct (I1 c v H) as [A B]; split; [exact A|apply wants_in, B]|]. split; [exact I2|]. split.
  - rewrite I3. split; intros H c Hc'; apply H; apply wants_in; exact Hc'.
  - intros B c Hc'. apply I4; [exact B|apply wants_in, Hc'].
Qed.
Print Assumptions C82_spectra_partial.

(** With --save_force_constants or --save_band_structure the full statement is false: every output of the run, also the power
    spectra requested beside, is computed on the automatic frequency range, whatever --frequency_range says. *)
Theorem C82_range_ignored_refuted :
  forall (K : kernels), three_d K -> forall (a : args K) (p : params K) (d d' : D K),
  length (p_q K p) = 3%nat -> crop K (Some (a_n K a)) d = Some d' -> valid K a d' -> a_save_fc K a = true \/ a_save_bands K a = true ->
  let '(out, finished) := program K a p d in
  let automatic := limits_range K 0%R (dos_max K d' (p_other K p)) (resolution K a p) in let used := with_range K automatic (asked K a p) in
  (forall c v, In (Ev K c v) out -> value_at K a d' used c = Some v) /\ (forall r, In (Er K r) out -> r = automatic) /\
  (finished = true -> forall c, wants K a c -> exists v, In (Ev K c v) out).
Proof.
  intros K H3 a p d d' Hq Hc V S. rewrite (program_ideal K H3 a p d d' Hq Hc V). set (now := asked K a p).
  assert (E : ideal K a d' now (all_steps K a) = ideal K a d' (auto_range K d' now) (all_steps K a)).
  { unfold all_steps. rewrite !ideal_app. destruct (ideal_early K a d' now (auto_range K d' now) eq_refl eq_refl) as (E1 & E2 & E3).
    destruct (ideal_early K a d' (auto_range K d' now) (auto_range K d' now) eq_refl eq_refl) as (_ & E2' & _). rewrite E1, E3, E2, E2'.
    assert (E4 : ideal K a d' now (main_steps K a) = ideal K a d' (auto_range K d' now) (main_steps K a) /\ final K d' now (main_steps K a) = final K d' (auto_range K d' now) (main_steps K a)).
    { unfold main_steps. destruct S as [S|S]; rewrite S; [|destruct (a_save_fc K a)]; cbn [flag app ideal after final]; (split; reflexivity). }
    destruct E4 as [E4 E5]. rewrite E4, E5. reflexivity. }
  rewrite E. assert (F : Forall (still K d' (auto_range K d' now)) (all_steps K a)).
  { rewrite Forall_forall. intros [c|n|c|] Hx; cbn [still]; [| | |exact I].
    - unfold all_steps, early_steps, main_steps, write_full, write_wave, write_phonon, peak_steps, thm_steps in Hx. rewrite !in_app_iff, !in_flag, !in_app_iff, !in_flag in Hx. cbn [In] in Hx.
      repeat match goal with H : _ \/ _ |- _ => destruct H | H : _ /\ _ |- _ => destruct H end; try discriminate; contradiction.
    - unfold all_steps, early_steps, main_steps, write_full, write_wave, write_phonon, peak_steps, thm_steps in Hx. rewrite !in_app_iff, !in_flag, !in_app_iff, !in_flag in Hx. cbn [In] in Hx.
      repeat match goal with H : _ \/ _ |- _ => destruct H | H : _ /\ _ |- _ => destruct H end; try discriminate; contradiction.
    - destruct c; try reflexivity. destruct auto; reflexivity. }
  destruct (ideal_still K a d' _ _ F) as (_ & I1 & I2 & I3 & I4). destruct (ideal K a d' (auto_range K d' now) (all_steps K a)) as [out finished]. cbn [fst snd] in *.
  split; [intros c v H; apply (I1 c v H)|]. split; [exact I2|]. intros B c Hc'. apply I4; [exact B|apply wants_in, Hc'].
Qed.
Print Assumptions C82_range_ignored_refuted.

(** Also, in one table of thermal properties (--thermal_properties, no reference, no other request for force constants) the density of
    states of the first column is taken on the range asked for and that of the second on the automatic range. *)
Theorem C82_two_ranges_refuted :
  forall (K : kernels), three_d K -> forall (a : args K) (p : params K) (d d' : D K),
  length (p_q K p) = 3%nat -> crop K (Some (a_n K a)) d = Some d' -> valid K a d' ->
  a_save_fc K a = false -> a_save_bands K a = false -> a_save_data K a = false -> a_save_mesh K a = false -> a_thm K a = true -> a_thm_reference K a = false ->
  let '(out, finished) := program K a p d in finished = true ->
  exists before rest f, let t := Ev K (GetTemp K) (VT K (temperature_asked K a d')) in
  out = before ++ [t; t; Er K (p_range K (asked K a p)); Ev K (GetRFC K) f; t; Er K (limits_range K 0%R (dos_max K d' (p_other K p)) (resolution K a p))] ++ rest.
Proof.
  intros K H3 a p d d' Hq Hc V S1 S2 S3 S4 S5 S6. rewrite (program_ideal K H3 a p d d' Hq Hc V). set (now := asked K a p).
  unfold all_steps, main_steps. rewrite S1, S2, S3, S4, S5, S6. cbn [flag app].
  set (l0 := early_steps K a). set (m0 := flag K (a_save_full K a) _). set (m1 := flag K (a_save_wave K a) _). set (m2 := flag K (a_save_phonon K a) _).
  set (m3 := flag K (a_plot_full K a) _). set (m4 := flag K (a_plot_wave K a) _). set (m5 := flag K (a_plot_phonon K a) _). set (m6 := flag K (a_scan K a) _). set (m7 := flag K (a_peak K a) _).
  set (m8 := flag K (a_thm_full K a) _). set (m9 := flag K (a_partials K a) _).
  set (L := l0 ++ m0 ++ m1 ++ m2 ++ m3 ++ m4 ++ m5 ++ m6 ++ m7).
  match goal with |- context[ideal K a d' now ?X] => replace X with (L ++ (thm_steps K false false ++ m8) ++ m9) by (unfold L; rewrite <- !app_assoc; reflexivity) end.
  assert (F : final K d' now L = now).
  { apply (ideal_still K a d' now L). unfold L. assert (D : forall b l, Forall (still K d' now) l -> Forall (still K d' now) (flag K b l)) by (intros [] l Hl; [exact Hl|constructor]).
    unfold l0, early_steps. repeat (apply Forall_app; split); apply D; repeat constructor. }
  rewrite ideal_app. destruct (ideal K a d' now L) as [r b]. cbn [fst snd]. destruct b; [|intros B; discriminate]. rewrite F.
  unfold thm_steps. cbn [flag app ideal after value_at]. destruct (option_map (VFC K) (fresh_rfc K d' (a_qha K a) (auto_range K d' now))) as [f|]; [|intros B; discriminate B].
  set (tail := ideal K a d' (auto_range K d' now) (m8 ++ m9)). destruct tail as [r' b']. intros _.
  exists r, (Er K (p_range K (auto_range K d' now)) :: r'), f. reflexivity.
Qed.
Print Assumptions C82_two_ranges_refuted.

(** A selection that does not exist, or a trajectory that cannot be cropped, ends the program before any output. *)
Theorem C82_refused_partial :
  forall (K : kernels) (a : args K) (p : params K) (d d' : D K),
  (crop K (Some (a_n K a)) d = None -> program K a p d = ([], false)) /\
  (crop K (Some (a_n K a)) d = Some d' ->
   ~ (0 <= a_fit K a <= 2 /\ (forall x, a_alg K a = Some x -> 0 <= x <= 5) /\ (forall x, a_proj K a = Some x -> 0 <= x < primitive_atoms K d')) ->
   program K a p d = ([], false)).
Proof.
  intros K a p d d'. unfold program, script. change (new_obj K d None) with (base K d None None). cbn [app exec]. rewrite base_crop.
  split; [intros ->; reflexivity|intros -> V]. apply settings_bad. exact V.
Qed.
Print Assumptions C82_refused_partial.

(** the free kernels: two different ranges, and a run with several outputs *)
Definition example_args (fc : bool) : args Kfree :=
  MkArgs Kfree 0 0 (Some 300%R) None (Some 1) (Some 2%R) None (Some 2) (Some 50) (Some (1, 2)%R)
   false true false fc false true true false false false false false false false true false false false true.
Example C82_nonvacuous :
  exists d', crop Kfree (Some 0) (o_dyn Kfree (ob Kfree s0)) = Some d' /\ valid Kfree (example_args false) d' /\ spectra_only Kfree (example_args false) /\
  length (p_q Kfree (par Kfree s0)) = 3%nat /\ wants Kfree (example_args false) (GetFull Kfree (-1)) /\
  limits_range Kfree 1%R 2%R 2%R <> limits_range Kfree 0%R (dos_max Kfree d' tt) 2%R.
Proof.
  eexists. split; [reflexivity|]. split; [|split; [|split; [|split]]].
  - split; [cbn; lia|]. split; [cbn; intros x [= <-]; lia|]. split; [cbn; intros x [= <-]; lia|]. cbn. intros q E. discriminate E.
  - repeat split.
  - reflexivity.
  - cbn. auto.
  - cbn. intros E. injection E. lra.
Qed.
