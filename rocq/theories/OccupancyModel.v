(** Model of the occupation number and fit temperature printed by dynaphopy/analysis/fitting/__init__.py:phonon_fitting_analysis, and of the
    physical constants of the package.  Exact reals. *)
From Verif Require Export ThermalModel DosModel.
From Verif Require HarmonicModel FftModel.
From Coq Require Export Reals.
Open Scope R_scope.

(** dynaphopy/analysis/fitting/__init__.py:11-13 (the same values in dynaphopy/analysis/fitting/fitting_functions.py:4-6) *)
Definition h_planck : R := 4135667662 / 10^12.
Definition h_planck_bar : R := h_planck / (2 * PI).
Definition kb_eV : R := 86173324 / 10^12.
(** dynaphopy/power_spectrum/__init__.py:9  unit_conversion *)
Definition unit_conversion : R := FftModel.fft_unit_conversion.
(** dynaphopy/analysis/energy.py:5 and dynaphopy/interface/iofile/__init__.py:348: kb_boltzmann = 0.831446 u A^2 / (ps^2 K) *)
Definition kb_amu : R := HarmonicModel.kb_boltzmann.

(** dynaphopy/analysis/fitting/__init__.py:84: dt_Q2_lor (total_integral instead of area gives dt_Q2_tot, 85) *)
Definition dt_Q2_lor (area : R) : R := 2 * area.
(** dynaphopy/analysis/fitting/__init__.py:92  occupancy_lor, for position <> 0 *)
Definition occupancy (area position : R) : R := dt_Q2_lor area / (position * h_planck_bar) - 1/2.
(** dynaphopy/analysis/fitting/__init__.py:96  fit_temperature with numpy's arithmetic: 1/0 = inf, log inf = inf, x/inf = 0, log 0 = -inf, log of a negative
    number nan.  [None] is nan.  At position = 0 the occupancy is infinite or nan and the temperature 0/0 = nan.  (The RuntimeWarning handler
    99-107 is only reached when warnings are errors.) *)
Definition fit_temperature (area position : R) : option R :=
  if Req_EM_T position 0 then None
  else let o := occupancy area position in
    if Req_EM_T o 0 then Some 0
    else let a := 1 / o + 1 in
      if Rlt_dec 0 a then Some (h_planck_bar * position / (kb_eV * ln a))
      else if Req_EM_T a 0 then Some 0 else None.
