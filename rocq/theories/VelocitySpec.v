(** Specification vocabulary for C91. *)
From Verif Require Export VelocityModel DisplacementsSpec.
Open Scope R_scope.
(** [y] is the position [x] moved by a whole number of lattice vectors (what a periodic MD code may write for x) *)
Definition image (n : nat) (cell x y : nat -> R) : Prop :=
  exists m : nat -> Z, forall k, (k < n)%nat -> y k = x k + lattice_combination n cell (fun j => IZR (m j)) k.
(** [x] is less than half a cell away from [p] along every lattice vector *)
Definition near (n : nat) (cell p x : nat -> R) : Prop :=
  exists f, (forall k, (k < n)%nat -> x k - p k = lattice_combination n cell f k) /\ forall j, (j < n)%nat -> -(1/2) < f j < 1/2.
(** L time stamps with the constant spacing h *)
Definition stamps (t0 h : R) (L : nat) : list R := map (fun s => t0 + INR s * h) (seq 0 L).
