(** Specification vocabulary for wave vectors. *)
From Verif Require Export Base.
Open Scope R_scope.
(** translation by integer multiples of the lattice vectors of a cell repeated nx, ny, nz times *)
Definition translation (cell : mat) (nx ny nz : nat) (a b c : Z) : vec := vmul (V3 (IZR a * INR nx) (IZR b * INR ny) (IZR c * INR nz)) cell.
(** the plane wave of q takes the same value at points related by such translations *)
Definition periodic (q : vec) (cell : mat) (nx ny nz : nat) : Prop := forall a b c, exists m : Z, vdot q (translation cell nx ny nz a b c) = 2 * PI * IZR m.
Definition near_integer (eps x : R) : Prop := exists m : Z, Rabs (x - IZR m) <= eps.
(** componentwise *)
Definition close (eps : R) (a b : vec) : Prop := Rabs (vx a - vx b) <= eps /\ Rabs (vy a - vy b) <= eps /\ Rabs (vz a - vz b) <= eps.
