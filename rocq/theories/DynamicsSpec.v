(** Specification vocabulary for Dynamics objects. *)
From Verif Require Export DynamicsModel.
Open Scope nat_scope.

(** the trajectory a Dynamics object holds, whether stored cartesian or scaled *)
Definition held_trajectory {P V E T M} (unscale : P -> P) (s : dynamics P V E T M) : option (list P) :=
  match d_traj s with Some t => Some t | None => option_map (map unscale) (d_scaled s) end.

(** quadratic form u^T A u *)
Definition quad (A : mat) (u : vec) : R := vdot u (mulv A u).
Definition symmetric (A : mat) : Prop := mT A = A.

(** mean over a list of vectors / matrices *)
Definition mmean (l : list mat) : mat := mscale (/ INR (length l)) (msum l).

(** all displacement vectors (over time and atoms) of the atoms of type t *)
Definition displacements_of_type (atoms : list (nat * list vec)) (t : nat) : list vec :=
  flat_map (fun a => if Nat.eqb (fst a) t then snd a else []) atoms.
Definition atoms_of_type (atoms : list (nat * vec)) (t : nat) : list vec :=
  flat_map (fun a => if Nat.eqb (fst a) t then [snd a] else []) atoms.
