(** Model of Gaussian_function (dynaphopy/analysis/fitting/fitting_functions.py:285-368), the fit of displacement distributions
    (dynaphopy/__init__.py:1007-1022 plot_trajectory_distribution).  scipy's curve_fit is any parameter vector with any error, quad is the exact integral. *)
From Verif Require Export FitFunctionsModel.
Open Scope R_scope.

(** dynaphopy/analysis/fitting/fitting_functions.py:302-310 Gaussian_function._function *)
Definition gaussian (a b c d x : R) : R := c / b * sqrt (2 * PI) * exp (- (x - a)^2 / (2 * b^2)) + d.
(** dynaphopy/analysis/fitting/fitting_functions.py:329-365 Gaussian_function.get_fitting; xmax: the last abscissa; err: average of the standard errors of position and width *)
Definition gaussian_fitting (a b c d xmax : R) (err : xreal) : option report :=
  finish (gaussian a b c d a) (Rabs b) a (RInt (gaussian a b c d) 0 xmax) d err.
(** dynaphopy/__init__.py:1009-1022: what is printed, the mean and the standard deviation; None: "Gaussian fitting failed" (reading the missing keys of
    {'all_good': False} raises KeyError, which the bare except turns into this message) *)
Definition printed_fit (r : option report) : option (R * R * xreal) := option_map (fun r => (r_position r, r_width r, r_error r)) r.
