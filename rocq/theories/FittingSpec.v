(** Specification vocabulary for the fitting analysis. *)
From Verif Require Export FittingModel.
From Coq Require Export Sorting.Permutation.
Open Scope R_scope.
(** every member but the first lies within the cutoff of an earlier member *)
Definition linked (freqs : nat -> R) (cutoff : R) (s : list nat) : Prop :=
  s <> [] /\ forall k, (0 < k < length s)%nat -> exists l, (l < k)%nat /\ Rabs (freqs (nth l s 0%nat) - freqs (nth k s 0%nat)) < cutoff.
(** a partition of the branches 0..n-1 *)
Definition partition (n : nat) (sets : list (list nat)) : Prop := Permutation (concat sets) (seq 0 n).
Definition ascending (freqs : nat -> R) (n : nat) : Prop := forall i j, (i <= j < n)%nat -> freqs i <= freqs j.
(** branches of different sets are at least the cutoff apart *)
Definition separated (freqs : nat -> R) (cutoff : R) (sets : list (list nat)) : Prop :=
  forall a b, (a < b < length sets)%nat -> forall i j, In i (nth a sets []) -> In j (nth b sets []) -> cutoff <= Rabs (freqs i - freqs j).

(** what one branch contributes to (positions, widths, relative errors, occupations); a fit that
    reported no success contributes zeros, otherwise the position is moved by the thermal shift dx *)
Definition entry (gf : (nat -> R) -> option fitted) (ps : nat -> R) (dx : R) : R * R * R * R :=
  match gf ps with None => (0, 0, 0, 0) | Some f => (peak_position f + dx, width f, global_error f / maximum f, 2 * area f) end.
Definition shift_of (shift : option (list R)) (i : nat) : R := match shift with None => 0 | Some s => nth i s 0 end.
(** the arithmetic mean of the spectra of the branches of s *)
Definition mean_spectrum (data : nat -> nat -> R) (s : list nat) (w : nat) : R := fold_right Rplus 0 (map (data w) s) / INR (length s).
