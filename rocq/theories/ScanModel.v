(** Model of the scan of the number of maximum entropy coefficients: dynaphopy/power_spectrum/__init__.py:109-218
    (mem_coefficient_scan_analysis; reached from Quasiparticle.phonon_width_scan_analysis, dynaphopy/__init__.py:856-859).
    Exact reals for finite values; infinities and nan of the fit error are explicit ([xreal], FitFunctionsModel).  The maximum entropy spectrum
    and the curve fit are arguments.  Plots and the progress bar are not modelled, except for the rule that nothing is printed if the computation of any
    branch raises (printing starts at 181, after the loop over the branches). *)
From Verif Require Export FitFunctionsModel.
From Coq Require Export List Reals Arith.
Export ListNotations.
Open Scope R_scope.

(** one row of fit_data (157) with the first element of its fit parameters (158) *)
Record point := MkPoint { p_coefficients : nat; p_width : R; p_error : xreal; p_area : R; p_first : R }.

(** IEEE order, no nan *)
Definition xlt (x y : xreal) : bool :=
  match x, y with
  | Fin a, Fin b => if Rlt_dec a b then true else false
  | Fin _, Inf => true
  | _, _ => false
  end.
(** dynaphopy/power_spectrum/__init__.py:173: np.argmin, the first of the smallest *)
Fixpoint argmin_from (l : list point) (i best : nat) (value : xreal) : nat :=
  match l with
  | [] => best
  | p :: t => if xlt (p_error p) value then argmin_from t (S i) i (p_error p) else argmin_from t (S i) best value
  end.
Definition argmin (l : list point) : nat := match l with [] => 0%nat | p :: t => argmin_from t 1 0 (p_error p) end.

(** dynaphopy/power_spectrum/__init__.py:171: np.sqrt(1. / error); division by zero gives inf with a warning *)
Definition weight (e : xreal) : xreal :=
  match e with
  | Inf => Fin 0
  | NaN => NaN
  | Fin x => if Req_EM_T x 0 then Inf else if Rlt_dec x 0 then NaN else Fin (sqrt (1 / x))
  end.
Inductive average := Average (x : R) | NotANumber | ZeroDivisionError.
(** dynaphopy/power_spectrum/__init__.py:171: np.average(widths, weights=...): raises when the weights add up to exactly zero; an infinite weight gives inf/inf = nan *)
Fixpoint sums (l : list point) : option (R * R) :=
  match l with
  | [] => Some (0, 0)
  | p :: t =>
      match weight (p_error p), sums t with
      | Fin w, Some (a, b) => Some (w * p_width p + a, w + b)
      | _, _ => None
      end
  end.
Definition best_width (l : list point) : average :=
  match sums l with
  | None => NotANumber
  | Some (a, b) => if Req_EM_T b 0 then ZeroDivisionError else Average (a / b)
  end.

Section Scan.
Context {spectrum : Type}.
(** dynaphopy/power_spectrum/__init__.py:123-128 mem.mem on one branch with a number of coefficients; None: the spectrum contains nan (137) *)
Variable mem : nat -> nat -> option spectrum.
(** dynaphopy/power_spectrum/__init__.py:142-147 the chosen curve's get_fitting; None: all_good is False (150).  With the report comes _fit_params[0]. *)
Variable get_fitting : spectrum -> option (report * R).

(** dynaphopy/power_spectrum/__init__.py:121-160: skipped points leave no trace in fit_data, scan_params, power_spectra *)
Definition scan_point (branch n : nat) : list point :=
  match mem branch n with
  | None => []
  | Some ps => match get_fitting ps with None => [] | Some (r, first) => [MkPoint n (r_width r) (r_error r) (r_area r) first] end
  end.
Definition fit_data (range : list nat) (branch : nat) : list point := flat_map (scan_point branch) range.

(** what 185-195 print for one peak *)
Record printed := MkPrinted { peak : nat; estimated_width : average; position : R; area : R; coefficients : nat; global_error : xreal }.
Definition print_branch (branch : nat) (l : list point) : printed :=
  let p := nth (argmin l) l (MkPoint 0 0 NaN 0 0) in
  MkPrinted (S branch) (best_width l) (p_first p) (p_area p) (p_coefficients p) (p_error p).

(** dynaphopy/power_spectrum/__init__.py:114-176 the dictionary of branches; 166-168: branches without any fit are left out.  None: an exception. *)
Fixpoint mem_full_dict (range : list nat) (branches : list nat) : option (list printed) :=
  match branches with
  | [] => Some []
  | i :: t =>
      match fit_data range i with
      | [] => mem_full_dict range t
      | l => match best_width l with
             | ZeroDivisionError => None
             | _ => match mem_full_dict range t with None => None | Some r => Some (print_branch i l :: r) end
             end
      end
  end.
(** dynaphopy/power_spectrum/__init__.py:109-195 *)
Definition mem_coefficient_scan_analysis (range : list nat) (number_of_branches : nat) : option (list printed) :=
  mem_full_dict range (seq 0 number_of_branches).
End Scan.
