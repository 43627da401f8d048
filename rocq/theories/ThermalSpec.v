(** Specification vocabulary for harmonic thermodynamics. *)
From Coq Require Export Reals List.
From Coquelicot Require Export Coquelicot.
Export ListNotations.
Open Scope R_scope.
(** frequencies and densities of the same length, frequencies positive except that the first may be 0 *)
Definition good_grid (frequency dos : list R) : Prop := length frequency = length dos /\ 0 <= hd 0 frequency /\ List.Forall (fun f => 0 < f) (tl frequency).
(** the first sample contributes nothing: zero frequency or zero density *)
Definition first_silent (frequency dos : list R) : Prop := hd 0 frequency = 0 \/ hd 0 dos = 0.
Definition all_nonneg (l : list R) : Prop := List.Forall (fun x => 0 <= x) l.
