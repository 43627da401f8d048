(** Model of dynaphopy/dynamics.py:Dynamics. *)
From Verif Require Export Base Rounding SupercellModel.
Open Scope nat_scope.

(** Python slice a[-n:] for n > 0 *)
Definition lastn {A} (n : nat) (l : list A) : list A := skipn (length l - n) l.

(** ------------------------------------------------------------------------------------
    Part 1: the object with its caches.  A frame type P for positions, V for velocities, E
    energies, T times, M the mean displacement matrices.  Numerical kernels are parameters. *)
Record dynamics {P V E T M : Type} := MkDyn {
  d_traj : option (list P);      (* self._trajectory *)
  d_scaled : option (list P);    (* self._scaled_trajectory *)
  d_rel : option (list P);       (* self._relative_trajectory *)
  d_vel : option (list V);       (* self._velocity *)
  d_energy : option (list E);    (* self._energy *)
  d_time : option (list T);      (* self._time *)
  d_vma : option (list V);       (* self._velocity_mass_average *)
  d_mdm : option M;              (* self._mean_displacement_matrix *)
  d_ts : option T;               (* self._time_step_average *)
  d_memmap : bool                (* self._memmap *)
}.
Arguments dynamics : clear implicits.
Arguments MkDyn {P V E T M}.

Section Dyn.
Context {P V E T M : Type}.
(** np.dot(frame, supercell), dynaphopy/dynamics.py:305 *)
Variable unscale : P -> P.
(** displacement of every atom of one frame, dynaphopy/dynamics.py:174-175 (atomic_displacements acts on each
    time step separately) *)
Variable displace : P -> P.
(** np.gradient along time, dynaphopy/dynamics.py:323-326 *)
Variable gradient : list P -> T -> list V.
(** velocity times sqrt(mass) for every atom of one frame, dynaphopy/dynamics.py:152-154 *)
Variable massweight : V -> V.
(** dynaphopy/dynamics.py:129-138 without the cache; [is_zero] is Python's "not x" on a number *)
Variable average_step : list T -> T.
Variable is_zero : T -> bool.
(** dynaphopy/dynamics.py:211-237 without the cache: flag use_average_positions, displacements *)
Variable mean_matrix : bool -> list P -> M.

Local Notation dyn := (dynamics P V E T M).
Definition upd_traj (s : dyn) v : dyn := MkDyn v (d_scaled s) (d_rel s) (d_vel s) (d_energy s) (d_time s) (d_vma s) (d_mdm s) (d_ts s) (d_memmap s).
Definition upd_scaled (s : dyn) v : dyn := MkDyn (d_traj s) v (d_rel s) (d_vel s) (d_energy s) (d_time s) (d_vma s) (d_mdm s) (d_ts s) (d_memmap s).
Definition upd_rel (s : dyn) v : dyn := MkDyn (d_traj s) (d_scaled s) v (d_vel s) (d_energy s) (d_time s) (d_vma s) (d_mdm s) (d_ts s) (d_memmap s).
Definition upd_vel (s : dyn) v : dyn := MkDyn (d_traj s) (d_scaled s) (d_rel s) v (d_energy s) (d_time s) (d_vma s) (d_mdm s) (d_ts s) (d_memmap s).
Definition upd_energy (s : dyn) v : dyn := MkDyn (d_traj s) (d_scaled s) (d_rel s) (d_vel s) v (d_time s) (d_vma s) (d_mdm s) (d_ts s) (d_memmap s).
Definition upd_time (s : dyn) v : dyn := MkDyn (d_traj s) (d_scaled s) (d_rel s) (d_vel s) (d_energy s) v (d_vma s) (d_mdm s) (d_ts s) (d_memmap s).
Definition upd_vma (s : dyn) v : dyn := MkDyn (d_traj s) (d_scaled s) (d_rel s) (d_vel s) (d_energy s) (d_time s) v (d_mdm s) (d_ts s) (d_memmap s).
Definition upd_mdm (s : dyn) v : dyn := MkDyn (d_traj s) (d_scaled s) (d_rel s) (d_vel s) (d_energy s) (d_time s) (d_vma s) v (d_ts s) (d_memmap s).
Definition upd_ts (s : dyn) v : dyn := MkDyn (d_traj s) (d_scaled s) (d_rel s) (d_vel s) (d_energy s) (d_time s) (d_vma s) (d_mdm s) v (d_memmap s).

(** dynaphopy/dynamics.py:300-311 property trajectory; [None] = "No trajectory loaded", exit() *)
Definition trajectory (s : dyn) : option (list P * dyn) :=
  match d_traj s with
  | Some t => Some (t, s)
  | None => match d_scaled s with
            | Some sc => let t := map unscale sc in Some (t, upd_traj s (Some t))
            | None => None
            end
  end.

(** dynaphopy/dynamics.py:158-179 get_relative_trajectory *)
Definition relative (s : dyn) : option (list P * dyn) :=
  match d_rel s with
  | Some r => Some (r, s)
  | None => match trajectory s with
            | None => None
            | Some (t, s1) => let r := map displace t in Some (r, upd_rel s1 (Some r))
            end
  end.

(** dynaphopy/dynamics.py:129-138 get_time_step_average; get_time() of None raises: [None] *)
Definition time_step (s : dyn) : option (T * dyn) :=
  match (match d_ts s with Some v => if is_zero v then None else Some v | None => None end) with
  | Some v => Some (v, s)
  | None => match d_time s with
            | None => None
            | Some ti => let v := average_step ti in Some (v, upd_ts s (Some v))
            end
  end.

(** dynaphopy/dynamics.py:313-329 property velocity *)
Definition velocity (s : dyn) : option (list V * dyn) :=
  match d_vel s with
  | Some v => Some (v, s)
  | None => match relative s with
            | None => None
            | Some (r, s1) => match time_step s1 with
                              | None => None
                              | Some (h, s2) => let v := gradient r h in Some (v, upd_vel s2 (Some v))
                              end
            end
  end.

(** dynaphopy/dynamics.py:143-156 get_velocity_mass_average *)
Definition velocity_mass (s : dyn) : option (list V * dyn) :=
  match d_vma s with
  | Some v => Some (v, s)
  | None => match velocity s with
            | None => None
            | Some (v, s1) => let w := map massweight v in Some (w, upd_vma s1 (Some w))
            end
  end.

(** dynaphopy/dynamics.py:207-239 get_mean_displacement_matrix(use_average_positions) *)
Definition mean_displacement (flag : bool) (s : dyn) : option (M * dyn) :=
  match d_mdm s with
  | Some m => Some (m, s)
  | None => match relative s with
            | None => None
            | Some (r, s1) => let m := mean_matrix flag r in Some (m, upd_mdm s1 (Some m))
            end
  end.

(** dynaphopy/dynamics.py:65-105 crop_trajectory(last_steps); last_steps None or an integer.
    The memmap branch reads self._relative_trajectory.filename: AttributeError when it is None. *)
Definition crop (last_steps : option Z) (s : dyn) : option dyn :=
  match last_steps with
  | None => Some s
  | Some z =>
    if (z <=? 0)%Z then Some s else
    let n := Z.to_nat z in
    let s := match d_traj s with
             | Some t => upd_scaled (upd_rel (upd_traj s (Some (lastn n t))) None) None
             | None => s end in
    let s := match d_rel s with
             | Some r => upd_scaled (upd_traj (upd_rel s (Some (lastn n r))) None) None
             | None => s end in
    let s := match d_scaled s with
             | Some q => upd_rel (upd_traj (upd_scaled s (Some (lastn n q))) None) None
             | None => s end in
    let s := match d_energy s with Some e => upd_energy s (Some (lastn n e)) | None => s end in
    let s := match d_time s with Some e => upd_time s (Some (lastn n e)) | None => s end in
    match velocity s with                       (* self.velocity.shape[0], self.velocity[-n:] *)
    | None => None
    | Some (v, s) =>
      let s := upd_vel s (Some (lastn n v)) in
      let s := upd_vma s None in
      if d_memmap s
      then match d_rel s with None => None (* AttributeError *) | Some _ => Some (upd_rel s None) end
      else Some (upd_rel s None)
    end
  end.

Inductive dop := Crop (n : option Z) | GetTrajectory | GetRelative | GetVelocity | GetVMA | GetStep | GetMDM (flag : bool).
Definition dstep (o : dop) (s : dyn) : option dyn :=
  match o with
  | Crop n => crop n s
  | GetTrajectory => option_map snd (trajectory s)
  | GetRelative => option_map snd (relative s)
  | GetVelocity => option_map snd (velocity s)
  | GetVMA => option_map snd (velocity_mass s)
  | GetStep => option_map snd (time_step s)
  | GetMDM f => option_map snd (mean_displacement f s)
  end.
Fixpoint drun (h : list dop) (s : dyn) : option dyn :=
  match h with [] => Some s | o :: h' => match dstep o s with None => None | Some s' => drun h' s' end end.

(** dynaphopy/dynamics.py:8-51 __init__ *)
Definition new_dynamics (traj scaled : option (list P)) (vel : option (list V)) (energy : option (list E)) (time : option (list T)) (memmap : bool) : dyn :=
  MkDyn traj scaled None vel energy time None None None memmap.
End Dyn.

(** ------------------------------------------------------------------------------------
    Part 2: numerical kernels over the reals. *)
Open Scope R_scope.

(** np.round(x, decimals=8) *)
Definition round8 (x : R) : R := IZR (around (x * 100000000)) / 100000000.

(** dynaphopy/dynamics.py:131-136: the accumulation loop *)
Fixpoint step_sum (t : list R) (d : R) : R :=
  match t with
  | a :: ((b :: _) as rest) => (b - a) / d + step_sum rest d
  | _ => 0
  end.
Definition average_time_step (t : list R) : R := round8 (step_sum t (INR (length t - 1))).

(** np.gradient(f, h) of one component (numpy semantics for a uniform spacing): one-sided at the
    ends, central inside; numpy raises for fewer than 2 samples ([] here). *)
Fixpoint grad_inner (f : list R) (h : R) : list R :=
  match f with
  | a :: ((_ :: c :: _) as rest) => (c - a) / (2 * h) :: grad_inner rest h
  | [a; b] => [(b - a) / h]
  | _ => []
  end.
Definition np_gradient (f : list R) (h : R) : list R :=
  match f with
  | a :: b :: _ => (b - a) / h :: grad_inner f h
  | _ => []
  end.

(** dynaphopy/dynamics.py:181-205 get_supercell_matrix(tolerance=0.01) without the cache (which is in DynFailureModel):
    [None] is the "do not match" exit. Zero norms are excluded by the theorems. *)
Definition supercell_matrix (tol : R) (supercell cell : mat) : option (Z * Z * Z) :=
  let q0 := vnorm (r0 supercell) / vnorm (r0 cell) in
  let q1 := vnorm (r1 supercell) / vnorm (r1 cell) in
  let q2 := vnorm (r2 supercell) / vnorm (r2 cell) in
  let m0 := around q0 in let m1 := around q1 in let m2 := around q2 in
  if Rlt_dec tol (Rabs (((IZR m0 - q0) + (IZR m1 - q1) + (IZR m2 - q2)) / vnorm (V3 q0 q1 q2)))
  then None else Some (m0, m1, m2).

(** sums of vectors and matrices over lists *)
Definition vsum (l : list vec) : vec := fold_right vadd vzero l.
Definition mzero : mat := M3 vzero vzero vzero.
Definition msum (l : list mat) : mat := fold_right madd mzero l.
(** np.average over the time axis *)
Definition vmean (l : list vec) : vec := vscale (/ INR (length l)) (vsum l).
(** outer product: np.dot(u^T, v) contribution of one step *)
Definition outer (u v : vec) : mat := M3 (vscale (vx u) v) (vscale (vy u) v) (vscale (vz u) v).

(** dynaphopy/dynamics.py:207-239: loop over atoms accumulating into mean_displacement_matrix[type].
    [atoms] lists, in supercell order, the type of each atom and its displacements in time;
    displacements are real (the imaginary parts of the complex arrays are zero);
    [counts t] = number_atom_primitive_equivalent[t]; ncells = np.prod(supercell). *)
Definition mdm_step (flag : bool) (counts : nat -> nat) (acc : nat -> mat) (a : nat * list vec) : nat -> mat :=
  let '(ty, ds) := a in
  let pd := if flag then vmean ds else vzero in
  let x := mscale (/ INR (counts ty)) (msum (map (fun u => outer u (vsub u pd)) ds)) in
  fun t => if Nat.eqb t ty then madd (acc t) x else acc t.
Definition mean_displacement_matrix (flag : bool) (counts : nat -> nat) (ncells ndata : nat) (atoms : list (nat * list vec)) (t : nat) : mat :=
  mscale (/ (INR ncells * INR ndata)) (fold_left (mdm_step flag counts) atoms (fun _ => mzero) t).
(** np.unique(atom_type, return_counts=True)[1][t] for types numbered 0..n-1 (see C05) *)
Definition type_count (types : list nat) (t : nat) : nat := count_occ Nat.eq_dec types t.

(** dynaphopy/dynamics.py:241-295 average_positions(to_unit_cell=True): the accumulation and the folding.
    [atoms]: type and mean displacement of each supercell atom; [inv] is numpy.linalg.inv. *)
Definition unit_average (ncells : nat) (atoms : list (nat * vec)) (t : nat) : vec :=
  fold_left (fun (acc : nat -> vec) a => let '(ty, u) := a in
     fun t => if Nat.eqb t ty then vadd (acc t) (vscale (/ INR ncells) u) else acc t) atoms (fun _ => vzero) t.
Definition fold_into_cell (inv : mat -> mat) (cell : mat) (x : vec) : vec :=
  let d := mulv (inv (mT cell)) (vsub x (vscale (1/2) (vmul (V3 1 1 1) cell))) in
  vsub x (vmul (V3 (IZR (around (vx d))) (IZR (around (vy d))) (IZR (around (vz d)))) cell).
Definition average_position_unit (inv : mat -> mat) (cell : mat) (ncells : nat) (atoms : list (nat * vec)) (pos : vec) (ty : nat) : vec :=
  fold_into_cell inv cell (vadd (unit_average ncells atoms ty) pos).
