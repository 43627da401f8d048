(** The spectrum of a set of coordinates: sum over (atom, coordinate) pairs of the column spectra. *)
From Coq Require Export Reals List.
Export ListNotations.
Open Scope R_scope.
Definition total (l : list R) : R := fold_right Rplus 0 l.
(** sum over the atoms in [atoms] and the coordinates in [coords] of f atom coordinate *)
Definition double_sum (atoms coords : list nat) (f : nat -> nat -> R) : R := total (map (fun i => total (map (f i) coords)) atoms).
