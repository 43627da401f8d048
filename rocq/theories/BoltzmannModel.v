(** Model of dynaphopy/analysis/energy.py (exact real arithmetic; printing and plotting left out). *)
From Coq Require Import Reals List.
Import ListNotations.
Open Scope R_scope.

(* dynaphopy/analysis/energy.py:5 *)
Definition kb_boltzmann : R := 831446 / 1000000.
(* numpy.linalg.norm of one atom's vector (real components) *)
Definition norm (v : list R) : R := sqrt (fold_right Rplus 0 (map (fun x => x ^ 2) v)).
(* dynaphopy/dynamics.py:143-156 get_velocity_mass_average: the components of atom i times the root of its mass; one frame *)
Definition weighted (masses : list R) (frame : list (list R)) : list (list R) :=
  map (fun p => map (fun x => x * sqrt (fst p)) (snd p)) (combine masses frame).
(* dynaphopy/analysis/energy.py:13 the norms over axis 2, flattened frame by frame *)
Definition speeds (masses : list R) (velocity : list (list (list R))) : list R :=
  flat_map (fun frame => map norm (weighted masses frame)) velocity.
(* dynaphopy/analysis/energy.py:15 numpy.average, 16 numpy.std *)
Definition average (l : list R) : R := fold_right Rplus 0 l / INR (length l).
Definition deviation (l : list R) : R := sqrt (average (map (fun x => (x - average l) ^ 2) l)).
(* dynaphopy/analysis/energy.py:8-25 boltzmann_distribution; [fit] data guess: the scale found by scipy.stats.maxwell.fit(data, floc=0, scale=guess) *)
Definition boltzmann_distribution (fit : list R -> R -> R) (masses : list R) (velocity : list (list (list R))) : R :=
  let v := speeds masses velocity in fit v (average [average v; deviation v]) ^ 2 / kb_boltzmann.
(* dynaphopy/analysis/energy.py:15-18 the average and the deviation that are printed *)
Definition printed_moments (masses : list R) (velocity : list (list (list R))) : R * R := let v := speeds masses velocity in (average v, deviation v).
