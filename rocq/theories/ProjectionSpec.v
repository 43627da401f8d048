(** Specification of the projections, independent of the loops. *)
From Verif Require Export ProjectionModel.
Open Scope R_scope.
(** sum of f over the indices below n that satisfy p *)
Definition csum_if (n : nat) (p : nat -> bool) (f : nat -> C) : C := csum n (fun i => if p i then f i else RtoC 0).
(** e^{-i x} *)
Definition expmi (x : R) : C := (cos x, - sin x).
(** total squared modulus *)
Fixpoint energy1 (n : nat) (v : nat -> C) : R := match n with O => 0 | S n => energy1 n v + Cmod (v n) ^ 2 end.
Fixpoint energy2 (n m : nat) (v : nat -> nat -> C) : R := match n with O => 0 | S n => energy2 n m v + energy1 m (v n) end.
(** the modes below nmodes are orthonormal vectors of natoms x ndim components *)
Definition orthonormal (natoms ndim nmodes : nat) (e : nat -> nat -> nat -> C) : Prop :=
  forall k l, (k < nmodes)%nat -> (l < nmodes)%nat ->
  csum natoms (fun i => csum ndim (fun d => Cmult (e k i d) (Cconj (e l i d)))) = if (k =? l)%nat then RtoC 1 else RtoC 0.
