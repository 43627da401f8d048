(** C23, C24, C25, C26, C50, C55: the Quasiparticle object. *)
From Verif Require Import QuasiModel QuasiSpec QuasiProofs QuasiMore.
From Coq Require Import Lra Lia.
Open Scope Z_scope.

(** C23: after any setup (setters of any kind, before the first computation) followed by any ordinary
    history (any setter or getter except crop_trajectory, set_projection_onto_atom_type and
    set_qha_force_constants; one coordinate for the full spectrum), every getter returns the value
    computed from the settings and the trajectory current at that moment. *)
Theorem C23_history_partial :
  forall (K : kernels) (coord : Z), three_d K ->
  forall (p : params K) (d : D K) (setup h : list (call K)),
  length (p_q K p) = 3%nat -> Forall (setup_call K) setup -> Forall (ordinary K coord) h ->
  let s := run K (setup ++ h) (MkS K p (new_obj K d None)) in
  let now := par K s in let traj := o_dyn K (ob K s) in
  fst (do_call K (GetEig K) s) = Some (VE K (fst (fresh_eig K traj now))) /\
  fst (do_call K (GetFreq K) s) = Some (VF K (snd (fresh_eig K traj now))) /\
  fst (do_call K (GetVc K) s) = Some (VVc K (fresh_vc K traj now)) /\
  fst (do_call K (GetVq K) s) = Some (VVq K (fresh_vq K traj now)) /\
  fst (do_call K (GetPhonon K) s) = option_map (VPS K) (fresh_phonon K traj now) /\
  fst (do_call K (GetWave K) s) = option_map (VPS K) (fresh_wave K traj now) /\
  fst (do_call K (GetFull K coord) s) = option_map (VPS K) (fresh_full K traj now coord).
Proof. exact history_fresh. Qed.
Print Assumptions C23_history_partial.

(** The full statement is false.  The element-resolved spectra are never recomputed: once returned,
    the same value comes back after every history whatsoever. *)
Theorem C23_partials_frozen_refuted :
  forall (K : kernels) (s : state K) x, fst (do_call K (GetPartials K) s) = Some x ->
  forall h, fst (do_call K (GetPartials K) (run K h (snd (do_call K (GetPartials K) s)))) = Some x.
Proof. exact partials_frozen. Qed.
Print Assumptions C23_partials_frozen_refuted.
(** A new atom projection does not reach anything already computed. *)
Theorem C23_projection_ignored_refuted :
  forall (K : kernels) (a : Z) (g : call K) (s : state K) x, spectrum_getter K g ->
  fst (do_call K g s) = Some x ->
  fst (do_call K g (snd (do_call K (SetProj K a) (snd (do_call K g s))))) = Some x.
Proof. exact projection_ignored. Qed.
Print Assumptions C23_projection_ignored_refuted.
(** Cropping the trajectory does not reach spectra already computed. *)
Theorem C23_crop_ignored_refuted :
  forall (K : kernels) (n : option Z) (g : call K) (s : state K) x,
  spectrum_getter K g -> g <> GetVc K ->
  fst (do_call K g s) = Some x ->
  fst (do_call K g (snd (do_call K (Crop K n) (snd (do_call K g s))))) = Some x.
Proof. exact crop_ignored. Qed.
Print Assumptions C23_crop_ignored_refuted.
(** On a new object a crop does reach everything: the object then behaves as one made from the cropped trajectory; a crop that the
    trajectory refuses leaves it as it was. *)
Theorem C23_crop_first_partial :
  forall (K : kernels) (n : option Z) (p : params K) (d : D K) (h : list (call K)),
  (forall d', crop K n d = Some d' -> run K (Crop K n :: h) (MkS K p (new_obj K d None)) = run K h (MkS K p (new_obj K d' None))) /\
  (crop K n d = None -> fst (do_call K (Crop K n) (MkS K p (new_obj K d None))) = None /\
     run K (Crop K n :: h) (MkS K p (new_obj K d None)) = run K h (MkS K p (new_obj K d None))).
Proof.
  intros K n p d h. assert (H := crop_new K n p d). split.
  - intros d' E. rewrite E in H. unfold run. cbn [fold_left]. rewrite H. reflexivity.
  - intros E. rewrite E in H. split; [rewrite H; reflexivity|]. unfold run. cbn [fold_left]. rewrite H. reflexivity.
Qed.
Print Assumptions C23_crop_first_partial.
(** The full spectrum for one coordinate is returned for every other coordinate. *)
Theorem C23_coordinate_ignored_refuted :
  forall (K : kernels) (c c' : Z) (s : state K) x, fst (do_call K (GetFull K c) s) = Some x ->
  fst (do_call K (GetFull K c') (snd (do_call K (GetFull K c) s))) = Some x.
Proof. exact coordinate_ignored. Qed.
Print Assumptions C23_coordinate_ignored_refuted.
(** With the free kernels (results record what they were computed from): the stale spectra are not
    the fresh ones. *)
Example C23_stale_is_wrong :
  let s := snd (do_call Kfree (GetFull Kfree 0) s0) in let s' := snd (do_call Kfree (SetProj Kfree 1) s) in
  fst (do_call Kfree (GetFull Kfree 0) s') <> option_map (VPS Kfree) (fresh_full Kfree (o_dyn Kfree (ob Kfree s')) (par Kfree s') 0).
Proof. lazy -[Rdiv Rmult Rplus IZR]. congruence. Qed.
Example C23_nonvacuous :
  three_d Kfree /\ Forall (setup_call Kfree) [SetProj Kfree 1; Crop Kfree (Some 7)] /\
  Forall (ordinary Kfree 0) [GetPhonon Kfree; SelAlg Kfree 2; GetFull Kfree 0; SetLimits Kfree 0 1; GetCom Kfree true].
Proof.
  split; [exact Kfree_3d|]. split; repeat constructor.
Qed.

(** C24: after any setup and any ordinary history, the commensurate point data and the renormalized
    force constants are the ones computed from scratch with the settings in force when the call
    returns; with auto_range (always the case for the force constants) the frequency range is first
    reset from the harmonic density of states unless data is already available. *)
Theorem C24_history_partial :
  forall (K : kernels) (coord : Z), three_d K ->
  forall (p : params K) (d : D K) (setup h : list (call K)),
  length (p_q K p) = 3%nat -> Forall (setup_call K) setup -> Forall (ordinary K coord) h ->
  let s := run K (setup ++ h) (MkS K p (new_obj K d None)) in
  forall auto,
  (forall c s', do_call K (GetCom K auto) s = (Some (VCom K c), s') ->
     fresh_com K (o_dyn K (ob K s')) (o_qha K (ob K s')) (par K s') = Some c) /\
  (forall f s', do_call K (GetRFC K) s = (Some (VFC K f), s') ->
     fresh_rfc K (o_dyn K (ob K s')) (o_qha K (ob K s')) (par K s') = Some f).
Proof. exact history_com. Qed.
Print Assumptions C24_history_partial.
(** Reading that data: one row and one set of eigenvectors per commensurate point, in order; each row is the fit of the spectrum at its
    own point, or (symmetry on) the row of an earlier equivalent point other than the first; when such a point exists and the first
    point is not equivalent, the row is always reused; without symmetry never. *)
Theorem C24_rows_partial :
  forall (K : kernels) (coord : Z), three_d K ->
  forall (p : params K) (d : D K) (setup h : list (call K)),
  length (p_q K p) = 3%nat -> Forall (setup_call K) setup -> Forall (ordinary K coord) h ->
  let s := run K (setup ++ h) (MkS K p (new_obj K d None)) in
  forall auto c s', do_call K (GetCom K auto) s = (Some (VCom K c), s') ->
  let now := par K s' in let traj := o_dyn K (ob K s') in let qha := o_qha K (ob K s') in
  c_q K c = com_points K traj (p_other K now) /\ length (c_rows K c) = length (c_q K c) /\ length (c_eig K c) = length (c_q K c) /\
  forall i q, nth_error (c_q K c) i = Some q -> nth_error (c_eig K c) i = Some (fst (eig K traj q)) /\
    exists row, nth_error (c_rows K c) i = Some row /\ (own_fit K traj qha now q row \/ reused K traj now c i row) /\
    (p_sym K now = false -> own_fit K traj qha now q row) /\
    (p_sym K now = true -> (exists j q', (0 < j < i)%nat /\ nth_error (c_q K c) j = Some q' /\ In q' (equivalent K traj q)) ->
       (forall q0, nth_error (c_q K c) 0 = Some q0 -> ~ In q0 (equivalent K traj q)) -> reused K traj now c i row).
Proof.
  intros K coord H3 p d setup h Hq Hs Hh s auto c s' E now traj qha.
  destruct (history_com K coord H3 p d setup h Hq Hs Hh auto) as [F _]. specialize (F c s' E). destruct (com_rows K _ _ _ _ F) as [(Hl & Hle & Hr) Hp].
  split; [exact Hp|]. split; [exact Hl|]. split; [exact Hle|]. intros i q Hi. destruct (Hr i q Hi) as (He & row & Hrow & Hor & Hre).
  split; [exact He|]. exists row. split; [exact Hrow|]. split; [exact Hor|]. split; [|exact Hre].
  intros S. destruct Hor as [Ho|[S' _]]; [exact Ho|]. unfold now in S. congruence.
Qed.
Print Assumptions C24_rows_partial.
(** Full statement false: after the data exists, a new atom projection, QHA reference or trajectory
    crop leaves data and force constants as they were ... *)
Theorem C24_changes_ignored_refuted :
  forall (K : kernels) (c : call K) (auto auto' : bool) (s : state K) x, ignored_by_data K c ->
  fst (do_call K (GetCom K auto) s) = Some x ->
  fst (do_call K (GetCom K auto') (snd (do_call K c (snd (do_call K (GetCom K auto) s))))) = Some x.
Proof. exact data_ignores. Qed.
Print Assumptions C24_changes_ignored_refuted.
(** ... and the frequency range chosen by the user is not the one used: it is overwritten. *)
Theorem C24_user_range_lost_refuted :
  forall (K : kernels) (s : state K) x, o_com K (ob K s) = None ->
  fst (do_call K (GetRFC K) s) = Some x ->
  p_range K (par K (snd (do_call K (GetRFC K) s))) =
  limits_range K 0%R (dos_max K (o_dyn K (ob K s)) (p_other K (par K s))) (p_res K (par K s)).
Proof. exact user_range_lost. Qed.
Print Assumptions C24_user_range_lost_refuted.
Example C24_nonvacuous : exists c s', do_call Kfree (GetCom Kfree true) s0 = (Some (VCom Kfree c), s') /\ length (c_rows Kfree c) = 2%nat.
Proof. exact com_example. Qed.

(** C25: whenever one of these calls returns, every setting is what it was, except that the
    commensurate analysis may set the frequency range; in particular the wave vector is. *)
Theorem C25_wave_vector_restored :
  forall (K : kernels) (c : call K) (s s' : state K) x, visits_wave_vectors K c ->
  do_call K c s = (Some x, s') ->
  p_q K (par K s') = p_q K (par K s) /\ with_range K (p_range K (par K s)) (par K s') = par K s /\
  fst (do_call K (GetQ K) s') = fst (do_call K (GetQ K) s).
Proof. exact wave_vector_restored. Qed.
Print Assumptions C25_wave_vector_restored.
(** If the calculation at an equivalent point exits instead, the object is left at that point. *)
Example C25_not_restored_on_exit : fst (do_call Kfail (GetPhonon Kfail) f0) = None /\
  fst (do_call Kfail (GetQ Kfail) (snd (do_call Kfail (GetPhonon Kfail) f0))) <> fst (do_call Kfail (GetQ Kfail) f0).
Proof. exact exit_example. Qed.
Example C25_nonvacuous : exists x s', do_call Kfree (GetPhonon Kfree) s0 = (Some x, s') /\ length (equivalent Kfree (o_dyn Kfree (ob Kfree s0)) (p_q Kfree (par Kfree s0))) = 2%nat.
Proof. destruct phonon_example as [x [s' E]]. exists x, s'. split; [exact E|reflexivity]. Qed.

(** C26 is false: all Quasiparticle objects share one settings object, so every setter that changes
    a setting on one is observable on the other. *)
Theorem C26_shared_settings_refuted :
  forall (K : kernels) (q : qvec) (w : duo K), p_q K (d_par K w) <> q ->
  fst (on_b K (GetQ K) (snd (on_a K (SetQ K q) w))) <> fst (on_b K (GetQ K) w).
Proof. exact shared_settings. Qed.
Print Assumptions C26_shared_settings_refuted.
(** Worse, the other object's caches are not cleared: it returns results for the old wave vector
    while reporting the new one. *)
Theorem C26_inconsistent_refuted :
  forall (K : kernels) (q : qvec) (w : duo K) x y, p_q K (d_par K w) <> q ->
  o_vc K (d_b K w) = Some x -> fst (on_b K (GetVc K) w) = Some y ->
  fst (on_b K (GetVc K) (snd (on_a K (SetQ K q) w))) = Some y /\
  fst (on_b K (GetQ K) (snd (on_a K (SetQ K q) w))) = Some (VQv K q).
Proof. exact inconsistent. Qed.
Print Assumptions C26_inconsistent_refuted.
(** What does hold: no call on one object touches the other's trajectory or cached results. *)
Theorem C26_own_data_partial :
  forall (K : kernels) (h : list (call K)) (w : duo K),
  d_b K (fold_left (fun w c => snd (on_a K c w)) h w) = d_b K w.
Proof. exact own_data. Qed.
Print Assumptions C26_own_data_partial.
(** Getters other than the ones of C25's exception leave the shared settings alone, so they cannot be
    observed on the other object at all. *)
Theorem C26_getters_independent_partial :
  forall (K : kernels) (g c : call K) (w : duo K), quiet_getter K g ->
  fst (on_a K g w) <> None ->
  fst (on_b K c (snd (on_a K g w))) = fst (on_b K c w).
Proof. exact getters_independent. Qed.
Print Assumptions C26_getters_independent_partial.
Example C26_nonvacuous : quiet_getter Kfree (GetPhonon Kfree) /\ fst (on_a Kfree (GetPhonon Kfree) (MkDuo Kfree (par Kfree s0) (ob Kfree s0) (ob Kfree s0))) <> None.
Proof. split; [exact I|]. destruct phonon_example as [x [s' E]]. unfold on_a. cbn [d_par d_a]. change (MkS Kfree (par Kfree s0) (ob Kfree s0)) with s0. rewrite E. discriminate. Qed.

(** C50 *)
Theorem C50_selections :
  forall (K : kernels) (n : Z) (s : state K),
  (do_call K (SelAlg K n) s = (None, s) <-> ~ (0 <= n <= 5)) /\
  (do_call K (SelFit K n) s = (None, s) <-> ~ (0 <= n <= 2)) /\
  (do_call K (SetProj K n) s = (None, s) <-> ~ (0 <= n < primitive_atoms K (o_dyn K (ob K s)))) /\
  (0 <= n <= 5 -> fst (do_call K (SelAlg K n) s) = Some (VUnit K) /\ par K (snd (do_call K (SelAlg K n) s)) = with_alg K n (par K s)) /\
  (0 <= n <= 2 -> fst (do_call K (SelFit K n) s) = Some (VUnit K) /\ par K (snd (do_call K (SelFit K n) s)) = with_fit K n (par K s)) /\
  (0 <= n < primitive_atoms K (o_dyn K (ob K s)) ->
     fst (do_call K (SetProj K n) s) = Some (VUnit K) /\ par K (snd (do_call K (SetProj K n) s)) = with_proj K n (par K s)).
Proof. exact selections. Qed.
Print Assumptions C50_selections.
Example C50_nonvacuous : primitive_atoms Kfree (o_dyn Kfree (ob Kfree s0)) = 2.
Proof. reflexivity. Qed.

(** C55: on an object whose temperature was not yet asked for or set; after it, every history without
    set_temperature returns the same value (unless it is exactly 0, when it is computed again). *)
Theorem C55_temperature :
  forall (K : kernels) (s : state K), o_temp K (ob K s) = None ->
  exists t s', do_call K (GetTemp K) s = (Some (VT K t), s') /\
  t = (maxwell_scale K (o_dyn K (ob K s)) ^ 2 / (831446 / 1000000))%R /\ (0 <= t)%R /\ par K s' = par K s /\
  (t <> 0%R -> forall h, Forall (fun c => match c with SetTemp _ _ => False | _ => True end) h ->
     fst (do_call K (GetTemp K) (run K h s')) = Some (VT K t)).
Proof. exact temperature. Qed.
Print Assumptions C55_temperature.
(** get_temperature never changes a setting, whatever the state. *)
Theorem C55_settings_kept :
  forall (K : kernels) (s : state K), par K (snd (do_call K (GetTemp K) s)) = par K s.
Proof. exact temperature_settings. Qed.
Print Assumptions C55_settings_kept.
Example C55_nonvacuous : o_temp Kfree (ob Kfree s0) = None /\ maxwell_scale Kfree (o_dyn Kfree (ob Kfree s0)) <> 0%R.
Proof. split; [reflexivity|]. cbn. lra. Qed.
