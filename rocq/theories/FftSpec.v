(** Vocabulary for the FFT spectra: tones, mean square, the frequency grid of a piece of n samples. *)
From Verif Require Export SpectraSpec.
From Coq Require Export Reals.
From Coquelicot Require Export Complex.
From Coq Require Export List ZArith Permutation.
Export ListNotations.
Open Scope R_scope.

Definition rsum (l : list R) : R := fold_right Rplus 0 l.
(** mean of |x_j|^2 *)
Definition mean_square_of (x : list C) : R := rsum (map (fun z => (Cmod z) ^ 2) x) / INR (length x).
(** N samples, dt apart, of the oscillation A e^{2 pi i f t} *)
Definition tone (A : C) (f dt : R) (N : nat) : list C :=
  map (fun j => Cmult A (cos (2 * PI * f * (INR j * dt)), sin (2 * PI * f * (INR j * dt)))) (seq 0 N).
(** the frequencies resolved by n samples dt apart: s / (n dt), for the n integers -(n/2) <= s <= (n-1)/2 *)
Definition resolved (n : nat) (s : Z) : Prop := (- (Z.of_nat n / 2) <= s <= (Z.of_nat n - 1) / 2)%Z.
Definition grid_frequency (n : nat) (dt : R) (s : Z) : R := IZR s / (INR n * dt).
(** all of them in increasing order *)
Definition full_grid (n : nat) (dt : R) : list R :=
  map (fun k => grid_frequency n dt (Z.of_nat k - Z.of_nat n / 2)) (seq 0 n).
(** sum over the n lags l = -(n/2) .. of the fraction (n - |l|)/n of samples available at that lag *)
Definition lag_weight (n : nat) : R :=
  rsum (map (fun m => INR (n - Z.abs_nat (Z.of_nat m - Z.of_nat n / 2)) / INR n) (seq 0 n)).
(** the documented contract of np.argsort: a permutation of the indices that sorts the values *)
Definition sorts (argsort : list R -> list nat) (l : list R) : Prop :=
  Permutation (argsort l) (seq 0 (length l)) /\
  forall i j, (i < j < length l)%nat -> nth (nth i (argsort l) 0%nat) l 0 <= nth (nth j (argsort l) 0%nat) l 0.
