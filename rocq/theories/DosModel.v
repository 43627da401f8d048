(** Model of get_dos (dynaphopy/analysis/thermal_properties.py:18-36) and of the power spectrum column of Quasiparticle.display_thermal_properties
    (dynaphopy/__init__.py:1332-1355).  Exact reals, positive temperature. *)
From Verif Require Export ThermalModel.
Open Scope R_scope.
(** dynaphopy/analysis/thermal_properties.py:20 *)
Definition conversion_factor : R := 160217662 / 10^27.
(** dynaphopy/analysis/thermal_properties.py:25-30.  With Bose-Einstein statistics and freq = 0 the energy is 0*inf = nan *)
Definition mean_energy (bose_einstein_statistics : bool) (freq temp : R) : R :=
  if bose_einstein_statistics then h_bar * freq * (1/2 + n temp freq) else k_b * temp.
(** dynaphopy/analysis/thermal_properties.py:32-33, one value; nan is turned into 0 by np.nan_to_num *)
Definition dos_value (temp n_size : R) (bose_einstein_statistics : bool) (freq power : R) : R :=
  if bose_einstein_statistics then if Req_EM_T freq 0 then 0 else 2 * conversion_factor * power / (mean_energy true freq temp * n_size)
  else 2 * conversion_factor * power / (mean_energy false freq temp * n_size).
(** dynaphopy/analysis/thermal_properties.py:18-34: the list runs over the frequencies (a shorter power spectrum raises, which the model leaves out) *)
Definition get_dos (temp : R) (frequency power_spectrum : list R) (n_size : R) (bose_einstein_statistics : bool) : list R :=
  map (fun p => dos_value temp n_size bose_einstein_statistics (fst p) (snd p)) (combine frequency power_spectrum).

Section Display.
Context (weights : list R -> list R).
(** dynaphopy/__init__.py:1343-1348: normalisation of a density of states; also 1271-1276 *)
Definition normalise (N3 nprim : R) (project : bool) (frequency dos : list R) (normalize_dos : bool) : list R * R :=
  let integration := simps weights dos frequency / N3 in
  if normalize_dos then
    let d := map (fun x => x / integration) dos in
    if project then (map (fun x => x / nprim) d, 1 / nprim) else (d, 1)
  else (dos, integration).
(** dynaphopy/__init__.py:1332-1355: the five numbers of the power spectrum column; [cells]: np.prod(supercell matrix) *)
Definition power_spectrum_properties (temp N3 nprim cells : R) (project : bool) (frequency power_spectrum_full : list R) (normalize_dos : bool) : thermal :=
  let '(dos, integration) := normalise N3 nprim project frequency (get_dos temp frequency power_spectrum_full cells false) normalize_dos in
  MkThermal (get_free_energy weights temp frequency dos) (get_entropy weights temp frequency dos) (get_cv weights temp frequency dos) (get_total_energy weights temp frequency dos) integration.
End Display.
