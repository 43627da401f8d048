(** Constants of the density of states. *)
From Coq Require Export Reals.
Open Scope R_scope.
(** electronvolt in J, Boltzmann's constant in J/K, Planck's constant in J ps *)
Definition eV : R := 160217662 / 10^27.
Definition boltzmann : R := 138064852 / 10^31.
Definition planck : R := 6626070040 / 10^31.
