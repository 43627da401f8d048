(** Model of dynaphopy/analysis/thermal_properties.py and Quasiparticle.get_thermal_properties, in exact
    real arithmetic (no overflow of exp/sinh). *)
From Coq Require Export Reals List.
Export ListNotations.
Open Scope R_scope.

(** dynaphopy/analysis/thermal_properties.py:11-13 constants: 6.022140857e23, 1.38064852e-23 J/K, 6.626070040e-22 J ps *)
Definition N_a : R := 6022140857 * 10^14.
Definition k_b : R := 138064852 / 10^31.
Definition h_bar : R := 6626070040 / 10^31.

(** dynaphopy/analysis/thermal_properties.py:24-25 and the copies 41, 64, 76, 105: n(temp, freq) for freq <> 0 *)
Definition n (temp freq : R) : R := / (exp (freq * h_bar / (k_b * temp)) - 1).
(** scipy's simps(y, x=x) is a weighted sum of y with weights depending on x only *)
Section Quadrature.
Context (weights : list R -> list R).
Definition simps (y x : list R) : R := fold_right Rplus 0 (map (fun p => fst p * snd p) (combine (weights x) y)).

(** the integrands, per unit of dos.  At freq = 0 the first, third and fourth are 0*inf or 0/0, which np.nan_to_num turns into 0;
    the second is log of a non positive number: nan (0 after nan_to_num) for freq < 0, and -inf for freq = 0, where
    the model says 0 (only ever read at index 0, which get_free_energy overwrites) *)
Definition energy_term (temp freq : R) : R := if Req_EM_T freq 0 then 0 else h_bar * freq * (1/2 + n temp freq).
Definition free_term (temp freq : R) : R := if Rlt_dec 0 freq then k_b * temp * ln (2 * sinh (h_bar * freq / (2 * k_b * temp))) else 0.
Definition coth (x : R) : R := cosh x / sinh x.
Definition entropy_term (temp freq : R) : R :=
  if Rlt_dec 0 freq then 1 / (2 * temp) * h_bar * freq * coth (h_bar * freq / (2 * k_b * temp)) - k_b * ln (2 * sinh (h_bar * freq / (2 * k_b * temp))) else 0.
Definition entropy2_term (temp freq : R) : R :=
  if Rlt_dec 0 freq then k_b * ((n temp freq + 1) * ln (n temp freq + 1) - n temp freq * ln (n temp freq)) else 0.
Definition z (temp freq : R) : R := h_bar * freq / (k_b * temp).
Definition cv_term (temp freq : R) : R := if Req_EM_T freq 0 then 0 else k_b * (z temp freq)^2 * exp (z temp freq) / (exp (z temp freq) - 1)^2.

(** [dos[i] * term(freq) for i, freq in enumerate(frequency)]; a dos shorter than frequency raises, which the model leaves out *)
Definition sample (term : R -> R) (frequency dos : list R) : list R := map (fun p => snd p * term (fst p)) (combine frequency dos).
(** dynaphopy/analysis/thermal_properties.py:39-48 get_total_energy *)
Definition get_total_energy (temp : R) (frequency dos : list R) : R := simps (sample (energy_term temp) frequency dos) frequency * N_a / 1000.
(** dynaphopy/analysis/thermal_properties.py:51-58 get_free_energy, with free_energy[0] = 0 *)
Definition zero_first (y : list R) : list R := match y with [] => [] | _ :: t => 0 :: t end.
Definition get_free_energy (temp : R) (frequency dos : list R) : R := simps (zero_first (sample (free_term temp) frequency dos)) frequency * N_a / 1000.
(** dynaphopy/analysis/thermal_properties.py:61-70 get_free_energy_correction_shift; at freq = 0 the summand is infinite (a large number after nan_to_num), which the model leaves out *)
Definition get_free_energy_correction_shift (temp : R) (frequency dos : list R) (shift : R) : R :=
  simps (sample (fun freq => - h_bar / 2 * shift * (n temp freq + 1/2)) frequency dos) frequency * N_a / 1000.
(** dynaphopy/analysis/thermal_properties.py:73-87 get_free_energy_correction_dos *)
Definition subtract (u v : list R) : list R := map (fun p => fst p - snd p) (combine u v).
Definition corr_term (temp freq : R) : R := if Req_EM_T freq 0 then 0 else - h_bar / 2 * freq * (n temp freq + 1/2).
Definition get_free_energy_correction_dos (temp : R) (frequency dos dos_r : list R) : R :=
  simps (subtract (sample (corr_term temp) frequency dos_r) (sample (corr_term temp) frequency dos)) frequency * N_a / 1000.
(** dynaphopy/analysis/thermal_properties.py:90-99 get_entropy *)
Definition get_entropy (temp : R) (frequency dos : list R) : R := simps (sample (entropy_term temp) frequency dos) frequency * N_a.
(** dynaphopy/analysis/thermal_properties.py:102-111 get_entropy2 *)
Definition get_entropy2 (temp : R) (frequency dos : list R) : R := simps (sample (entropy2_term temp) frequency dos) frequency * N_a.
(** dynaphopy/analysis/thermal_properties.py:114-123 get_cv *)
Definition get_cv (temp : R) (frequency dos : list R) : R := simps (sample (cv_term temp) frequency dos) frequency * N_a.

(** dynaphopy/__init__.py:1253-1300 get_thermal_properties.  dos_of: phonopy's density of states (frequencies, dos)
    for given force constants (None: the harmonic ones); N3: number of atoms times dimensions; nprim:
    number of primitive atoms; project: project_on_atom > -1 *)
Record thermal := MkThermal { t_free : R; t_entropy : R; t_cv : R; t_total : R; t_integration : R }.
Definition get_thermal_properties {FC : Type} (dos_of : option FC -> list R * list R) (temp N3 nprim : R) (project : bool)
    (force_constants : option FC) (normalize_dos : bool) : thermal :=
  let '(freq, dos0) := dos_of force_constants in
  let integration0 := simps dos0 freq / N3 in
  let '(dos, integration) :=
    if normalize_dos then
      let d := map (fun x => x / integration0) dos0 in
      if project then (map (fun x => x / nprim) d, 1 / nprim) else (d, 1)
    else (dos0, integration0) in
  let correction :=
    match force_constants with
    | None => 0
    | Some _ => let '(freq_h, dos_h) := dos_of None in get_free_energy_correction_dos temp freq_h dos_h dos
    end in
  MkThermal (get_free_energy temp freq dos + correction) (get_entropy temp freq dos) (get_cv temp freq dos) (get_total_energy temp freq dos + correction) integration.
End Quadrature.
