(** C34, C35, C57, C58: harmonic thermodynamics. *)
From Verif Require Export ThermalModel ThermalSpec ThermalProofs.
From Coq Require Import Lra List.
Open Scope R_scope.

(** C34, every positive frequency and temperature *)
Theorem C34_free_energy : forall t f, 0 < t -> 0 < f -> free_term t f = energy_term t f - t * entropy_term t f.
Proof. exact F_E_TS. Qed.
Theorem C34_entropies_agree : forall t f, 0 < t -> 0 < f -> entropy2_term t f = entropy_term t f.
Proof. exact entropies. Qed.
Theorem C34_cv_is_dE_dT : forall t f, 0 < t -> 0 < f -> is_derive (fun t => energy_term t f) t (cv_term t f).
Proof. exact dE_dT. Qed.
Theorem C34_entropy_is_minus_dF_dT : forall t f, 0 < t -> 0 < f -> is_derive (fun t => free_term t f) t (- entropy_term t f).
Proof. exact dF_dT. Qed.
Theorem C34_positive : forall t f, 0 < t -> 0 < f -> 0 < entropy_term t f /\ 0 < cv_term t f /\ 0 < energy_term t f.
Proof. intros t f Ht Hf. split; [exact (entropy_pos t f Ht Hf)|]. split; [exact (cv_pos t f Ht Hf)|exact (energy_pos t f Ht Hf)]. Qed.

(** C35 *)
Theorem C35_same_dos : forall weights t frequency dos, get_free_energy_correction_dos weights t frequency dos dos = 0.
Proof. exact corr_same. Qed.
Theorem C35_no_shift : forall weights t frequency dos, get_free_energy_correction_shift weights t frequency dos 0 = 0.
Proof. exact corr_shift0. Qed.
(** in general the correction is minus half the change of the total energy *)
Theorem C35_correction_value : forall weights t frequency dos dos_r, length frequency = length dos -> length frequency = length dos_r ->
  get_free_energy_correction_dos weights t frequency dos dos_r = - (1/2) * (get_total_energy weights t frequency dos_r - get_total_energy weights t frequency dos).
Proof. exact corr_energy. Qed.

(** C57: the integrated quantities (kJ/mol and J/K/mol) for every linear quadrature rule *)
Theorem C57_totals_partial : forall weights t frequency dos, 0 < t -> good_grid frequency dos -> first_silent frequency dos ->
  get_free_energy weights t frequency dos = get_total_energy weights t frequency dos - t * get_entropy weights t frequency dos / 1000 /\
  is_derive (fun s => get_free_energy weights s frequency dos) t (- get_entropy weights t frequency dos / 1000).
Proof. intros w t fr ds Ht G S. split; [exact (identity_grid w t fr ds Ht G S)|exact (dF_grid w t fr ds Ht G S)]. Qed.
Theorem C57_energy_cv_entropy : forall weights t frequency dos, 0 < t -> good_grid frequency dos ->
  is_derive (fun s => get_total_energy weights s frequency dos) t (get_cv weights t frequency dos / 1000) /\
  get_entropy2 weights t frequency dos = get_entropy weights t frequency dos.
Proof. intros w t fr ds Ht G. split; [exact (dE_grid w t fr ds Ht G)|exact (entropy_agree w t fr ds Ht G)]. Qed.
Theorem C57_nonnegative : forall weights t frequency dos, 0 < t -> good_grid frequency dos -> all_nonneg dos -> all_nonneg (weights frequency) ->
  0 <= get_entropy weights t frequency dos /\ 0 <= get_cv weights t frequency dos /\ 0 <= get_total_energy weights t frequency dos.
Proof. exact signs. Qed.
(** the identity fails by the first sample, which get_free_energy zeroes although get_thermal_properties starts its
    grid at 0.01 THz: the gap is exactly its contribution *)
Theorem C57_first_sample_dropped_refuted : forall weights t f d frequency dos q ws, 0 < t -> 0 < f -> good_grid (f :: frequency) (d :: dos) -> weights (f :: frequency) = q :: ws ->
  get_total_energy weights t (f :: frequency) (d :: dos) - t * get_entropy weights t (f :: frequency) (d :: dos) / 1000 - get_free_energy weights t (f :: frequency) (d :: dos)
  = q * d * (k_b * t * ln (2 * sinh (h_bar * f / (2 * k_b * t)))) * N_a / 1000.
Proof. exact identity_gap. Qed.

(** C58: get_thermal_properties with force constants that give the harmonic density of states *)
Theorem C58_unnormalised_partial : forall weights (FC : Type) (dos_of : option FC -> list R * list R) t N3 nprim project fc, dos_of (Some fc) = dos_of None ->
  get_thermal_properties weights dos_of t N3 nprim project (Some fc) false = get_thermal_properties weights dos_of t N3 nprim project None false.
Proof. intros w FC d t N3 np pr fc H. exact (thermal_same w d t N3 np pr fc H). Qed.
(** with normalize_dos the harmonic density is left unnormalised, and the energies differ by this amount *)
Theorem C58_normalised_refuted : forall weights (FC : Type) (dos_of : option FC -> list R * list R) t N3 nprim fc frequency dos, dos_of (Some fc) = (frequency, dos) -> dos_of None = (frequency, dos) -> length frequency = length dos ->
  t_total (get_thermal_properties weights dos_of t N3 nprim false (Some fc) true) - t_total (get_thermal_properties weights dos_of t N3 nprim false None true)
  = - (1/2) * (/ (simps weights dos frequency / N3) - 1) * get_total_energy weights t frequency dos.
Proof. intros w FC d t N3 np fc fr ds H1 H2 L. exact (thermal_norm w d t N3 np fc fr ds H1 H2 L). Qed.

Print Assumptions C34_free_energy.
Print Assumptions C34_entropies_agree.
Print Assumptions C34_cv_is_dE_dT.
Print Assumptions C34_entropy_is_minus_dF_dT.
Print Assumptions C34_positive.
Print Assumptions C35_same_dos.
Print Assumptions C35_no_shift.
Print Assumptions C35_correction_value.
Print Assumptions C57_totals_partial.
Print Assumptions C57_energy_cv_entropy.
Print Assumptions C57_nonnegative.
Print Assumptions C57_first_sample_dropped_refuted.
Print Assumptions C58_unnormalised_partial.
Print Assumptions C58_normalised_refuted.

Example C34_nonvacuous : 0 < 300 /\ 0 < 5 /\ 0 < entropy_term 300 5.
Proof. split; [lra|]. split; [lra|]. apply entropy_pos; lra. Qed.
(** a three point grid from zero frequency, and the weights of Simpson's rule *)
Example C57_nonvacuous : good_grid (0 :: 1 :: 2 :: nil) (0 :: 1 :: 1 :: nil) /\ first_silent (0 :: 1 :: 2 :: nil) (0 :: 1 :: 1 :: nil) /\
  all_nonneg ((fun _ => 1/3 :: 4/3 :: 1/3 :: nil) (0 :: 1 :: 2 :: nil)).
Proof. split; [split; [reflexivity|]; cbn; split; [lra|]; repeat constructor; lra|]. split; [left; reflexivity|]. repeat constructor; lra. Qed.
(** the gap is not zero: at 0.01 THz and 300 K the dropped sample is negative *)
Example C57_gap_nonzero : k_b * 300 * ln (2 * sinh (h_bar * (1/100) / (2 * k_b * 300))) < 0.
Proof.
  assert (K := k_pos). assert (L : ln (2 * sinh (h_bar * (1/100) / (2 * k_b * 300))) < 0); [|nra].
  assert (X : 0 < h_bar * (1/100) / (2 * k_b * 300)) by (apply x_pos; lra). set (x := h_bar * (1/100) / (2 * k_b * 300)) in *. assert (X1 : x < 1/1000).
  { unfold x, h_bar, k_b. lra. }
  rewrite <- ln_1. assert (S : 0 < sinh x) by (rewrite <- sinh_0; apply sinh_lt; exact X). apply ln_increasing; [lra|].
  unfold sinh. assert (A : exp x < 1 + 2 * x). { assert (B := exp_ineq1_le (- x)). rewrite exp_Ropp in B. assert (P := exp_pos x). assert (C : / exp x * exp x = 1) by (apply Rinv_l; lra). nra. }
  assert (B : 1 - x <= exp (- x)) by (assert (B := exp_ineq1_le (- x)); lra). lra.
Qed.
Example C58_nonvacuous : exists dos_of : option unit -> list R * list R, dos_of (Some tt) = dos_of None /\ dos_of None = (1 :: 2 :: nil, 1 :: 1 :: nil).
Proof. exists (fun _ => (1 :: 2 :: nil, 1 :: 1 :: nil)). split; reflexivity. Qed.
