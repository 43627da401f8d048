(** Model of c/displacements.c and of dynaphopy/analysis/coordinates.py:relativize_trajectory_py.
    double values are real numbers; C arrays of doubles are functions on indices together with
    the dimension n the code passes around (so n is not restricted to 3). *)
From Verif Require Export Base Rounding.
Open Scope R_scope.

(** for (k = 0; k < n; k++) acc += f(k), starting at acc = 0 *)
Fixpoint rsum (n : nat) (f : nat -> R) : R :=
  match n with O => 0 | S m => rsum m f + f m end.

(** c/displacements.c:222-247 pymatrix_to_c_array_real: b[j] = a[i+n*j], the transposed matrix.
    [a] is the row-major buffer of an n x n array. *)
Definition pymatrix_to_c_array_real (n : nat) (a : nat -> R) : nat -> nat -> R :=
  fun i j => a (i + n * j)%nat.

(** c/displacements.c:281-291 and 320-331: the matrix without row i and column j
    (the "continue" tests skip one index) *)
Definition minor (i j : nat) (a : nat -> nat -> R) : nat -> nat -> R :=
  fun p q => a (if (p <? i)%nat then p else S p) (if (q <? j)%nat then q else S q).

(** c/displacements.c:266-300 Determinant, expansion along the first row *)
Fixpoint Determinant (n : nat) (a : nat -> nat -> R) : R :=
  match n with
  | O => 0
  | S m =>
    match m with
    | O => a 0%nat 0%nat
    | S O => a 0%nat 0%nat * a 1%nat 1%nat - a 1%nat 0%nat * a 0%nat 1%nat
    | _ => rsum n (fun j1 => (-1) ^ (j1 + 2) * a 0%nat j1 * Determinant m (minor 0 j1 a))
    end
  end.

(** c/displacements.c:303-348 CoFactor *)
Definition CoFactor (n : nat) (a : nat -> nat -> R) : nat -> nat -> R :=
  fun i j => (-1) ^ (i + j + 2) * Determinant (n - 1) (minor i j a).

(** c/displacements.c:248-263 matrix_inverse *)
Definition matrix_inverse (n : nat) (a : nat -> nat -> R) : nat -> nat -> R :=
  fun i j => CoFactor n a j i / Determinant n a.

(** c/displacements.c:352-369 matrix_multiplication *)
Definition matrix_multiplication (l : nat) (a b : nat -> nat -> R) : nat -> nat -> R :=
  fun i j => rsum l (fun k => a i k * b k j).

(** c/displacements.c:95-187 atomic_displacements, one time step: [cell] is the row-major buffer of the
    cell array, x = Trajectory[i], p = Positions *)
Definition atomic_displacement (n : nat) (cell : nat -> R) (p x : nat -> R) : nat -> R :=
  let Cell_c := pymatrix_to_c_array_real n cell in
  let Cell_i := matrix_inverse n Cell_c in
  let Difference := fun k (_ : nat) => x k - p k in
  let DifferenceMatrix := matrix_multiplication n Cell_i Difference in
  let Rounded := fun k (_ : nat) => IZR (cround (DifferenceMatrix k 0%nat)) in
  let PeriodicDisplacement := matrix_multiplication n Cell_c Rounded in
  fun k => x k - PeriodicDisplacement k 0%nat - p k.
(** the loop over time steps; each row of the result depends on its own row only *)
Definition atomic_displacements (n : nat) (cell : nat -> R) (p : nat -> R) (trajectory : list (nat -> R)) : list (nat -> R) :=
  map (atomic_displacement n cell p) trajectory.

(** dynaphopy/analysis/coordinates.py:53-75 relativize_trajectory_py, one atom and step.
    [inv] is numpy.linalg.inv(cell); the matrix acts on the difference from the left, then
    np.dot(vector, cell) from the right. *)
Definition relativize_py (inv : mat -> mat) (cell : mat) (p x : vec) : vec :=
  let d := mulv (inv cell) (vsub x p) in
  vsub x (vadd (vmul (V3 (IZR (around (vx d))) (IZR (around (vy d))) (IZR (around (vz d)))) cell) p).

(** numpy buffer and C-vector views of 3x3 arrays *)
Definition vget (v : vec) (i : nat) : R := match i with 0%nat => vx v | 1%nat => vy v | _ => vz v end.
Definition mget (m : mat) (i j : nat) : R := vget (match i with 0%nat => r0 m | 1%nat => r1 m | _ => r2 m end) j.
Definition buffer (m : mat) (i : nat) : R := mget m (i / 3) (i mod 3).
Definition mkvec (f : nat -> R) : vec := V3 (f 0%nat) (f 1%nat) (f 2%nat).
Definition mkmat (f : nat -> nat -> R) : mat := M3 (mkvec (f 0%nat)) (mkvec (f 1%nat)) (mkvec (f 2%nat)).
Definition displacement3 (cell : mat) (p x : vec) : vec :=
  mkvec (atomic_displacement 3 (buffer cell) (vget p) (vget x)).
