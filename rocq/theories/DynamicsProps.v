(** C07-C09, C14-C16: Dynamics objects. *)
From Verif Require Import DynamicsModel DynamicsSpec DynamicsProofs.
Open Scope nat_scope.

(** ---- C07: crop_trajectory ---- *)
Section C07.
Context {P V E T M : Type}.
Variables (unscale displace : P -> P) (gradient : list P -> T -> list V) (massweight : V -> V).
Variables (average_step : list T -> T) (is_zero : T -> bool) (mean_matrix : bool -> list P -> M).
Let run := @drun P V E T M unscale displace gradient massweight average_step is_zero mean_matrix.
Let crop_trajectory := @crop P V E T M unscale displace gradient average_step is_zero.
Let get_velocity (s : dynamics P V E T M) := option_map fst (velocity unscale displace gradient average_step is_zero s).

(** After any history, crop_trajectory(z) with z > 0 that returns leaves the last z steps of the
    trajectory, energy and time, and of a velocity that was loaded or already computed. *)
Theorem C07_crop_keeps_last_steps_partial :
  forall tr sc ve en ti mm h s z s',
  run h (new_dynamics tr sc ve en ti mm) = Some s -> (0 < z)%Z -> crop_trajectory (Some z) s = Some s' ->
  let n := Z.to_nat z in
  held_trajectory unscale s' = option_map (lastn n) (held_trajectory unscale s) /\
  d_energy s' = option_map (lastn n) (d_energy s) /\
  d_time s' = option_map (lastn n) (d_time s) /\
  (forall v, d_vel s = Some v -> get_velocity s' = Some (lastn n v)).
Proof. exact (crop_api unscale displace gradient massweight average_step is_zero mean_matrix). Qed.

(** last_steps None or not positive changes nothing. *)
Theorem C07_crop_nothing :
  forall s z, (forall k, z = Some k -> (k <= 0)%Z) -> crop_trajectory z s = Some s.
Proof.
  intros s [k|] H; [apply crop_nonpositive_spec, H; reflexivity|apply crop_none_spec].
Qed.

Theorem C07_crop_twice_partial :
  forall tr sc ve en ti mm h s z1 z2 s1 s2 s3,
  run h (new_dynamics tr sc ve en ti mm) = Some s -> (0 < z1)%Z -> (0 < z2)%Z ->
  (exists v, d_vel s = Some v) ->
  crop_trajectory (Some z1) s = Some s1 -> crop_trajectory (Some z2) s1 = Some s2 ->
  crop_trajectory (Some (Z.min z1 z2)) s = Some s3 ->
  held_trajectory unscale s2 = held_trajectory unscale s3 /\ d_energy s2 = d_energy s3 /\
  d_time s2 = d_time s3 /\ d_vel s2 = d_vel s3.
Proof. exact (crop_crop_api unscale displace gradient massweight average_step is_zero mean_matrix). Qed.

(** an in-memory object with loaded velocity can always be cropped *)
Theorem C07_crop_succeeds_partial :
  forall tr sc v en ti z, (0 < z)%Z ->
  exists s', crop_trajectory (Some z) (new_dynamics tr sc (Some v) en ti false) = Some s'.
Proof. intros tr sc v en ti z Hz. apply (crop_succeeds unscale displace gradient massweight average_step is_zero z _ v); try assumption; try reflexivity. apply DInv_new. Qed.

(** but a memory mapped one never can: AttributeError whatever the history was. *)
Theorem C07_crop_memmap_refuted :
  forall tr sc ve en ti h s z,
  run h (new_dynamics tr sc ve en ti true) = Some s -> d_memmap s = true ->
  (exists v, d_vel s = Some v) -> (0 < z)%Z ->
  crop_trajectory (Some z) s = None.
Proof. exact (crop_memmap_api unscale displace gradient massweight average_step is_zero mean_matrix). Qed.
End C07.
Print Assumptions C07_crop_keeps_last_steps_partial.
Print Assumptions C07_crop_nothing.
Print Assumptions C07_crop_twice_partial.
Print Assumptions C07_crop_succeeds_partial.
Print Assumptions C07_crop_memmap_refuted.

(** [lastn] is what "the last n steps" means. *)
Theorem C07_last_steps_meaning :
  forall (A : Type) n (l1 l2 : list A),
  (length l2 = n -> lastn n (l1 ++ l2) = l2) /\ (length l1 <= n -> lastn n l1 = l1) /\
  length (lastn n l1) = Nat.min n (length l1).
Proof. intros A n l1 l2. split; [apply lastn_app|split; [apply lastn_all|apply lastn_length]]. Qed.
Print Assumptions C07_last_steps_meaning.

(** When the velocity is derived from the trajectory, cropping before or after it is first asked
    for gives different velocities (positions 0,1,4 of one coordinate at unit time step). *)
Theorem C07_derived_velocity_refuted :
  let run := @drun R R unit R unit (fun x => x) (fun x => x) np_gradient (fun x => x) (fun _ => 1%R) (fun _ => false) (fun _ _ => tt) in
  let vel := @velocity R R unit R unit (fun x => x) (fun x => x) np_gradient (fun _ => 1%R) (fun _ => false) in
  let s0 := new_dynamics (Some [0%R; 1%R; 4%R]) None None None (Some [0%R; 1%R; 2%R]) false in
  exists s1 s2 v1 v2, run [GetVelocity; Crop (Some 2%Z)] s0 = Some s1 /\ run [Crop (Some 2%Z)] s0 = Some s2 /\
  option_map fst (vel s1) = Some v1 /\ option_map fst (vel s2) = Some v2 /\ v1 <> v2.
Proof. exact gradient_crop_order. Qed.
Print Assumptions C07_derived_velocity_refuted.

Example C07_nonvacuous :
  let run := @drun nat nat nat nat nat S S (fun l h => l) S (fun _ => 1) (fun _ => false) (fun _ l => length l) in
  exists s s1, run [GetVMA; GetMDM true] (new_dynamics None (Some [1;2;3]) None (Some [7;8;9]) (Some [0;1;2]) false) = Some s /\
  d_vel s = Some [3;4;5] /\ crop S S (fun l h => l) (fun _ => 1) (fun _ => false) (Some 2%Z) s = Some s1 /\
  held_trajectory S s1 = Some [3;4] /\ d_energy s1 = Some [8;9].
Proof. eexists. eexists. split; [cbv; reflexivity|]. split; [reflexivity|]. split; [cbv; reflexivity|]. split; cbv; reflexivity. Qed.

(** ---- C08: caches of derived quantities ---- *)
Section C08.
Context {P V E T M : Type}.
Variables (unscale displace : P -> P) (gradient : list P -> T -> list V) (massweight : V -> V).
Variables (average_step : list T -> T) (is_zero : T -> bool) (mean_matrix : bool -> list P -> M).
Let run := @drun P V E T M unscale displace gradient massweight average_step is_zero mean_matrix.
Let get_velocity := @velocity P V E T M unscale displace gradient average_step is_zero.
Let get_velocity_mass_average := @velocity_mass P V E T M unscale displace gradient massweight average_step is_zero.
Let get_mean_displacement_matrix := @mean_displacement P V E T M unscale displace mean_matrix.
Let get_time_step_average := @time_step P V E T M average_step is_zero.

(** get_velocity_mass_average() is the weighted current velocity after every history. *)
Theorem C08_velocity_mass_average :
  forall tr sc ve en ti mm h s w s',
  run h (new_dynamics tr sc ve en ti mm) = Some s -> get_velocity_mass_average s = Some (w, s') ->
  exists v s1, get_velocity s = Some (v, s1) /\ w = map massweight v.
Proof. exact (vma_api unscale displace gradient massweight average_step is_zero mean_matrix). Qed.

(** Without crop_trajectory and with one flag value the matrix and the time step are right too. *)
Theorem C08_without_crop_partial :
  forall tr sc ve en ti mm h s flag,
  forallb (no_crop flag) h = true ->
  run h (new_dynamics tr sc ve en ti mm) = Some s ->
  (forall m s', get_mean_displacement_matrix flag s = Some (m, s') ->
     exists t, held_trajectory unscale (@new_dynamics P V E T M tr sc ve en ti mm) = Some t /\ m = mean_matrix flag (map displace t)) /\
  (forall d s', get_time_step_average s = Some (d, s') -> exists l, ti = Some l /\ d = average_step l).
Proof. exact (caches_without_crop unscale displace gradient massweight average_step is_zero mean_matrix). Qed.

(** The flag of the first call wins. *)
Theorem C08_flag_refuted :
  forall t ve en ti mm,
  let r := map displace t in
  mean_matrix true r <> mean_matrix false r ->
  exists s s', run [GetMDM false] (new_dynamics (Some t) None ve en ti mm) = Some s /\
  get_mean_displacement_matrix true s = Some (mean_matrix false r, s') /\ mean_matrix false r <> mean_matrix true r.
Proof. exact (mdm_flag_stale unscale displace gradient massweight average_step is_zero mean_matrix). Qed.

(** crop_trajectory keeps the matrix and the time step of the uncropped data. *)
Theorem C08_crop_matrix_refuted :
  forall t v en ti n flag, (0 < n)%Z ->
  mean_matrix flag (map displace t) <> mean_matrix flag (map displace (lastn (Z.to_nat n) t)) ->
  exists s s', run [GetMDM flag; Crop (Some n)] (new_dynamics (Some t) None (Some v) en ti false) = Some s /\
  held_trajectory unscale s = Some (lastn (Z.to_nat n) t) /\
  get_mean_displacement_matrix flag s = Some (mean_matrix flag (map displace t), s').
Proof. exact (mdm_crop_stale unscale displace gradient massweight average_step is_zero mean_matrix). Qed.
Theorem C08_crop_time_step_refuted :
  forall t v en ti n, (0 < n)%Z -> is_zero (average_step ti) = false ->
  exists s s', run [GetStep; Crop (Some n)] (new_dynamics (Some t) None (Some v) en (Some ti) false) = Some s /\
  d_time s = Some (lastn (Z.to_nat n) ti) /\
  get_time_step_average s = Some (average_step ti, s').
Proof. exact (step_crop_stale unscale displace gradient massweight average_step is_zero mean_matrix). Qed.
End C08.
Print Assumptions C08_velocity_mass_average.
Print Assumptions C08_without_crop_partial.
Print Assumptions C08_flag_refuted.
Print Assumptions C08_crop_matrix_refuted.
Print Assumptions C08_crop_time_step_refuted.

(** the refutation applies to the real matrix: u and -u displaced atom, average removed or not *)
Example C08_nonvacuous :
  let mm := fun flag (fr : list (list vec)) => mean_displacement_matrix flag (fun _ => 1) 1 (length fr) [(0, map (fun f => hd vzero f) fr)] 0 in
  mm true [[V3 1 0 0]] <> mm false [[V3 1 0 0]].
Proof.
  cbn. unfold mean_displacement_matrix. cbn. intros H. injection H. intros. lra.
Qed.

(** ---- C09: average time step ---- *)
Open Scope R_scope.
Theorem C09_average_time_step :
  forall t, (2 <= length t)%nat ->
  Rabs (average_time_step t - (last t 0 - hd 0 t) / INR (length t - 1)) <= / 2 * / 100000000.
Proof. exact average_time_step_spec. Qed.
Print Assumptions C09_average_time_step.
(** exact for a uniform axis whose step has at most eight decimals *)
Theorem C09_uniform :
  forall t0 k n, (2 <= n)%nat ->
  average_time_step (map (fun i => t0 + INR i * (IZR k / 100000000)) (seq 0 n)) = IZR k / 100000000.
Proof. exact average_time_step_uniform. Qed.
Print Assumptions C09_uniform.
Theorem C09_too_short : forall t, (length t < 2)%nat -> average_time_step t = 0.
Proof. exact average_time_step_short. Qed.
Print Assumptions C09_too_short.
Example C09_nonvacuous : (2 <= length [0; 1/10; 3/10; 1])%nat /\ last [0; 1/10; 3/10; 1] 0 - hd 0 [0; 1/10; 3/10; 1] = 1.
Proof. split; [simpl; lia|simpl; ring]. Qed.

(** ---- C14: supercell matrix ---- *)
(** When accepted, each m_i is a nearest integer to the length ratio ... *)
Theorem C14_supercell_matrix_nearest_partial :
  forall tol A a m0 m1 m2, supercell_matrix tol A a = Some (m0, m1, m2) ->
  Rabs (IZR m0 - vnorm (r0 A) / vnorm (r0 a)) <= 1/2 /\
  Rabs (IZR m1 - vnorm (r1 A) / vnorm (r1 a)) <= 1/2 /\
  Rabs (IZR m2 - vnorm (r2 A) / vnorm (r2 a)) <= 1/2.
Proof. exact supercell_matrix_nearest. Qed.
Print Assumptions C14_supercell_matrix_nearest_partial.
(** ... and within the tolerance if the three deviations have one sign. *)
Theorem C14_supercell_matrix_tolerance_partial :
  forall tol A a m0 m1 m2, 0 < vnorm (r0 a) -> 0 < vnorm (r0 A) ->
  supercell_matrix tol A a = Some (m0, m1, m2) ->
  let q0 := vnorm (r0 A) / vnorm (r0 a) in
  let q1 := vnorm (r1 A) / vnorm (r1 a) in
  let q2 := vnorm (r2 A) / vnorm (r2 a) in
  (q0 <= IZR m0 /\ q1 <= IZR m1 /\ q2 <= IZR m2 \/ IZR m0 <= q0 /\ IZR m1 <= q1 /\ IZR m2 <= q2) ->
  Rabs (IZR m0 - q0) <= tol * vnorm (V3 q0 q1 q2) /\
  Rabs (IZR m1 - q1) <= tol * vnorm (V3 q0 q1 q2) /\
  Rabs (IZR m2 - q2) <= tol * vnorm (V3 q0 q1 q2).
Proof. exact supercell_matrix_same_sign. Qed.
Print Assumptions C14_supercell_matrix_tolerance_partial.
(** Deviations of opposite sign cancel: a 1.3 x 0.7 x 1 cell is accepted as 1 x 1 x 1. *)
Theorem C14_supercell_matrix_refuted :
  supercell_matrix (1/100) (mdiag (13/10) (7/10) 1) mid = Some (1%Z, 1%Z, 1%Z).
Proof. exact supercell_matrix_cancel. Qed.
Print Assumptions C14_supercell_matrix_refuted.
(** A factor of zero can be returned. *)
Theorem C14_zero_factor_refuted :
  exists A a, 0 < vnorm (r0 A) /\ 0 < vnorm (r1 A) /\ 0 < vnorm (r2 A) /\ a = mid /\
  supercell_matrix (1/100) A a = Some (0%Z, 10%Z, 10%Z).
Proof. exact supercell_matrix_zero. Qed.
Print Assumptions C14_zero_factor_refuted.
Example C14_nonvacuous : let A := mdiag (13/10) (7/10) 1 in
  0 < vnorm (r0 mid) /\ 0 < vnorm (r0 A) /\ supercell_matrix (1/100) A mid = Some (1%Z,1%Z,1%Z).
Proof. simpl. rewrite !vnorm_axis0 by lra. split; [lra|split; [lra|exact supercell_matrix_cancel]]. Qed.

(** ---- C15: average positions ---- *)
(** With k equivalent atoms of the type per unit cell the value added to the reference position
    is k times the mean displacement of the equivalent atoms. *)
Theorem C15_unit_average_value :
  forall ncells atoms t k, (0 < ncells)%nat -> (0 < k)%nat ->
  length (atoms_of_type atoms t) = (k * ncells)%nat ->
  unit_average ncells atoms t = vscale (INR k) (vmean (atoms_of_type atoms t)).
Proof. exact unit_average_mean. Qed.
Print Assumptions C15_unit_average_value.

(** So it is right for one atom of each type per cell (cell = primitive cell), and the folded
    position is a lattice translate inside the cell. *)
Theorem C15_average_positions_partial :
  forall inv cell ncells atoms pos t, (0 < ncells)%nat ->
  length (atoms_of_type atoms t) = ncells ->
  is_inverse (inv (mT cell)) (mT cell) ->
  exists a b c : Z,
  let y := average_position_unit inv cell ncells atoms pos t in
  y = vsub (vadd (vmean (atoms_of_type atoms t)) pos) (vmul (V3 (IZR a) (IZR b) (IZR c)) cell) /\
  forall f, y = vmul f cell -> 0 <= vx f <= 1 /\ 0 <= vy f <= 1 /\ 0 <= vz f <= 1.
Proof.
  intros inv cell n atoms pos t Hn HL HI. unfold average_position_unit.
  destruct (fold_into_cell_spec inv cell (vadd (unit_average n atoms t) pos) HI) as [a [b [c [E F]]]].
  exists a, b, c. cbv zeta. split; [|exact F]. rewrite E at 1.
  rewrite (unit_average_mean n atoms t 1); [|assumption|lia|lia].
  f_equal. f_equal. vec_ring.
Qed.
Print Assumptions C15_average_positions_partial.

(** ... and wrong whenever a type occurs k > 1 times per cell with a nonzero mean displacement. *)
Theorem C15_average_positions_refuted :
  forall ncells atoms t k, (0 < ncells)%nat -> (1 < k)%nat ->
  length (atoms_of_type atoms t) = (k * ncells)%nat ->
  vmean (atoms_of_type atoms t) <> vzero ->
  unit_average ncells atoms t <> vmean (atoms_of_type atoms t).
Proof.
  intros n atoms t k Hn Hk HL HN. rewrite (unit_average_mean n atoms t k) by (try assumption; lia).
  intros H. apply HN. destruct (vmean (atoms_of_type atoms t)) as [x y z].
  assert (K : 1 < INR k) by (apply (lt_INR 1 k) in Hk; simpl in Hk; exact Hk).
  unfold vscale, vzero in *; simpl in *. injection H as Hx Hy Hz.
  assert (G : forall u, INR k * u = u -> u = 0) by (intros u Hu; nra).
  rewrite (G _ Hx), (G _ Hy), (G _ Hz). reflexivity.
Qed.
Print Assumptions C15_average_positions_refuted.
Example C15_nonvacuous :
  let atoms := [(0%nat, V3 1 0 0); (0%nat, V3 1 0 0)] in
  length (atoms_of_type atoms 0) = (2 * 1)%nat /\ vmean (atoms_of_type atoms 0) <> vzero.
Proof. split; [reflexivity|]. unfold vmean; simpl. vec_unfold. intros H. injection H. intros. lra. Qed.

(** ---- C16: mean displacement matrices ---- *)
(** counts t * ncells atoms of the type, each with ndata samples: the average of the outer products *)
Theorem C16_average :
  forall counts ncells ndata atoms t,
  Forall (fun a => length (snd a) = ndata) atoms ->
  count_occ Nat.eq_dec (map fst atoms) t = (counts t * ncells)%nat ->
  (0 < counts t)%nat -> (0 < ncells)%nat -> (0 < ndata)%nat ->
  mean_displacement_matrix false counts ncells ndata atoms t =
  mmean (map (fun u => outer u u) (displacements_of_type atoms t)).
Proof. exact mean_displacement_average. Qed.
Print Assumptions C16_average.
Theorem C16_covariance :
  forall counts ncells ndata atoms t,
  mean_displacement_matrix true counts ncells ndata atoms t =
  mscale (/ (INR ncells * INR ndata) * / INR (counts t))
   (msum (flat_map (fun a => if Nat.eqb (fst a) t
      then map (fun u => outer (vsub u (vmean (snd a))) (vsub u (vmean (snd a)))) (snd a) else []) atoms)).
Proof. exact mean_displacement_covariance. Qed.
Print Assumptions C16_covariance.
Theorem C16_symmetric_psd :
  forall flag counts ncells ndata atoms t u,
  let A := mean_displacement_matrix flag counts ncells ndata atoms t in
  symmetric A /\ 0 <= quad A u /\ 0 <= vx (r0 A) /\ 0 <= vy (r1 A) /\ 0 <= vz (r2 A).
Proof. exact mean_displacement_psd. Qed.
Print Assumptions C16_symmetric_psd.
Example C16_nonvacuous :
  let atoms := [(0%nat, [V3 1 0 0; V3 0 1 0]); (1%nat, [V3 1 1 1; V3 0 0 0]); (0%nat, [V3 1 0 2; V3 0 1 0]); (1%nat, [vzero; vzero])] in
  Forall (fun a => length (snd a) = 2%nat) atoms /\ count_occ Nat.eq_dec (map fst atoms) 0%nat = (1 * 2)%nat.
Proof. split; [repeat constructor|reflexivity]. Qed.
