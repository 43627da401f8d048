(** Model of dynaphopy/analysis/fitting/fitting_functions.py: the three selectable curves and their
    get_fitting, in exact real arithmetic.  scipy's curve_fit is not modelled: its coefficients and the
    average of the first two standard errors are arguments.  b = 0 makes numpy divide by zero; every
    statement asks for b <> 0. *)
From Coq Require Export Reals.
From Coquelicot Require Export Coquelicot.
Open Scope R_scope.

(** IEEE value of np.average(standard_errors[:2]) / np.sqrt(area): standard errors are non negative,
    and +inf when scipy could not estimate the covariance, nan when the covariance has a negative diagonal *)
Inductive xreal := Fin (x : R) | Inf | NaN.
Definition div_sqrt (err : xreal) (area : R) : xreal :=
  match err with
  | NaN => NaN
  | Inf => if Rlt_dec area 0 then NaN else Inf
  | Fin e => if Rlt_dec area 0 then NaN else if Req_EM_T area 0 then if Req_EM_T e 0 then NaN else Inf else Fin (e / sqrt area)
  end.
Definition isnan (x : xreal) : bool := match x with NaN => true | _ => false end.

Record report := MkReport { r_maximum : R; r_width : R; r_position : R; r_error : xreal; r_area : R; r_base_line : R }.
(** the tail common to the get_fitting methods: 72-90, 171-188, 263-280; None is {'all_good': False} *)
Definition finish (maximum width frequency area base_line : R) (err : xreal) : option report :=
  let global_error := div_sqrt err area in
  if isnan global_error then None else Some (MkReport maximum width frequency global_error area base_line).

(** dynaphopy/analysis/fitting/fitting_functions.py:32-40 Lorentzian._function *)
Definition lorentzian (a b c d x : R) : R := c / (PI * b * (1 + ((x - a) / b)^2)) + d.
(** dynaphopy/analysis/fitting/fitting_functions.py:60-90 Lorentzian.get_fitting *)
Definition lorentzian_fitting (a b c d : R) (err : xreal) : option report :=
  finish (c / (b * PI)) (2 * b) a c d err.

(** dynaphopy/analysis/fitting/fitting_functions.py:114-121 Lorentzian_asymmetric._g_a *)
Definition g_a (a b s x : R) : R := 2 * b / (1 + exp (s * (x - a))).
(** dynaphopy/analysis/fitting/fitting_functions.py:123-132 Lorentzian_asymmetric._function *)
Definition asymmetric (a b c d s x : R) : R := c / (PI * g_a a b s x * (1 + ((x - a) / g_a a b s x)^2)) + d.
(** dynaphopy/analysis/fitting/fitting_functions.py:151-191 Lorentzian_asymmetric.get_fitting; x0 is the point returned by scipy's minimize_scalar, xmax the last
    frequency; scipy's quad is the exact integral *)
Definition asymmetric_fitting (a b c d s : R) (x0 xmax : R) (err : xreal) : option report :=
  finish (asymmetric a b c d s x0) (2 * g_a a b s x0) x0 (RInt (asymmetric a b c d s) 0 xmax) d err.

(** dynaphopy/analysis/fitting/fitting_functions.py:214-222 Damped_harmonic._function *)
Definition damped (a b c d x : R) : R := c / ((a^2 - x^2)^2 + (b * x)^2) + d.
(** dynaphopy/analysis/fitting/fitting_functions.py:241-283 Damped_harmonic.get_fitting *)
Definition damped_fitting (a b c d : R) (xmax : R) (err : xreal) : option report :=
  finish (damped a b c d a) (Rabs b) a (RInt (damped a b c d) 0 xmax) d err.
