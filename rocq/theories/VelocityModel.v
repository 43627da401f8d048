(** Model of the velocities computed from the coordinates (dynaphopy/dynamics.py:311-328) when none were supplied.
    Exact reals; the imaginary parts of the complex arrays are zero and left out. *)
From Verif Require Export DisplacementsModel DynamicsModel.
Open Scope R_scope.

(** dynaphopy/dynamics.py:323-326, one atom (reference position [p]) and coordinate [k]: np.gradient of the relative trajectory (156-179)
    with the average time step (127-138).  [traj] holds the atom's positions as read, [times] the time stamps *)
Definition computed_velocity (n : nat) (cell p : nat -> R) (traj : list (nat -> R)) (times : list R) (k : nat) : list R :=
  np_gradient (map (fun d : nat -> R => d k) (atomic_displacements n cell p traj)) (average_time_step times).
