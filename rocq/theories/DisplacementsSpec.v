(** Specification vocabulary for periodic displacements. *)
From Verif Require Export DisplacementsModel.
Open Scope R_scope.

(** cartesian vector with coefficients [c] on the lattice vectors (the rows of the n x n row-major buffer) *)
Definition lattice_combination (n : nat) (cell : nat -> R) (c : nat -> R) : nat -> R :=
  fun k => rsum n (fun j => c j * cell (j * n + k)%nat).
(** the lattice vectors are linearly independent: non-zero determinant of the buffer read row-major *)
Definition nonsingular (n : nat) (cell : nat -> R) : Prop :=
  forall c, (forall k, (k < n)%nat -> lattice_combination n cell c k = 0) -> forall j, (j < n)%nat -> c j = 0.
(** number exactly half way between two integers *)
Definition tie (x : R) : Prop := exists z : Z, x = IZR z + 1/2.
