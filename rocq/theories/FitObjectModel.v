(** Model of the life of a fit object (dynaphopy/analysis/fitting/fitting_functions.py): when the optimiser is run, from which starting point,
    what is remembered, and what get_fitting_parameters, get_fitting and get_curve answer in any order.  scipy's curve_fit is a kernel that may
    answer differently at each call ([optimise], given the number of the call and the starting point); minimize_scalar is a kernel
    ([best]); quad is the exact integral, as in FitFunctionsModel.  Real arithmetic. *)
From Verif Require Export FitFunctionsModel GaussianModel.
From Coq Require Export List.
Export ListNotations.
Open Scope R_scope.

Inductive shape := Lorentzian | Asymmetric | Damped | Gaussian.
(** fit_params: a, b, c, d and, for the asymmetric function, s *)
Record coefficients := Coef { co_a : R; co_b : R; co_c : R; co_d : R; co_s : R }.
(** the four _function methods: dynaphopy/analysis/fitting/fitting_functions.py:32-40, 123-132, 214-222, 302-310 *)
Definition evaluate (kind : shape) (p : coefficients) (x : R) : R :=
  match kind with
  | Lorentzian => lorentzian (co_a p) (co_b p) (co_c p) (co_d p) x
  | Asymmetric => asymmetric (co_a p) (co_b p) (co_c p) (co_d p) (co_s p) x
  | Damped => damped (co_a p) (co_b p) (co_c p) (co_d p) x
  | Gaussian => gaussian (co_a p) (co_b p) (co_c p) (co_d p) x
  end.
(** an exception: RuntimeError, or anything else (TypeError and ValueError of curve_fit) *)
Inductive exception := RuntimeError | OtherError.
(** the answer of curve_fit: coefficients with the mean of the first two standard errors, or an exception *)
Inductive outcome := Converged (p : coefficients) (err : xreal) | Raises (e : exception).
Inductive request := AskParameters | AskFitting | AskCurve (xs : list R).
Inductive response := Parameters (p : coefficients) (err : xreal) | Report (r : report) | NotGood | Curve (ys : list R) | Raised (e : exception).
(** [starts]: starting points (p0) of the runs of the optimiser so far; [cached]: _fit_params and _fit_covariances *)
Record fit_state := MkState { starts : list (option (list R)); cached : option (coefficients * xreal) }.

Section Fit.
Context (kind : shape) (grid : list R) (guess_position guess_height : option R)
        (optimise : nat -> option (list R) -> outcome) (best : coefficients -> R).
(** dynaphopy/analysis/fitting/fitting_functions.py:45-53, 137-145, 227-235, 315-323: p0, only with both guesses *)
Definition start : option (list R) :=
  match guess_position, guess_height with
  | Some position, Some height =>
    Some match kind with Asymmetric => [position; 1 / 10; height; 0; 0] | _ => [position; 1 / 10; height; 0] end
  | _, _ => None
  end.
(** dynaphopy/analysis/fitting/fitting_functions.py:42-57 get_fitting_parameters (and 134-149, 224-239, 312-327) *)
Definition get_fitting_parameters (st : fit_state) : fit_state * (coefficients * xreal + exception) :=
  match cached st with
  | Some pe => (st, inl pe)
  | None =>
    match optimise (length (starts st)) start with
    | Converged p err => (MkState (starts st ++ [start]) (Some (p, err)), inl (p, err))
    | Raises e => (MkState (starts st ++ [start]) None, inr e)
    end
  end.
(** dynaphopy/analysis/fitting/fitting_functions.py:59-91, 152-191, 241-279, 329-365: the numbers of the report *)
Definition describe (p : coefficients) (err : xreal) : option report :=
  match kind with
  | Lorentzian => lorentzian_fitting (co_a p) (co_b p) (co_c p) (co_d p) err
  | Asymmetric => asymmetric_fitting (co_a p) (co_b p) (co_c p) (co_d p) (co_s p) (best p) (last grid 0) err
  | Damped => damped_fitting (co_a p) (co_b p) (co_c p) (co_d p) (last grid 0) err
  | Gaussian => gaussian_fitting (co_a p) (co_b p) (co_c p) (co_d p) (last grid 0) err
  end.
(** dynaphopy/analysis/fitting/fitting_functions.py:59-94 get_fitting and get_curve (and 152-194, 241-282, 329-368) *)
Definition answer (st : fit_state) (q : request) : fit_state * response :=
  let '(st', got) := get_fitting_parameters st in
  (st', match q, got with
        | AskParameters, inl (p, err) => Parameters p err
        | AskFitting, inl (p, err) => match describe p err with Some r => Report r | None => NotGood end
        | AskCurve xs, inl (p, _) => Curve (map (evaluate kind p) xs)
        | AskFitting, inr RuntimeError => NotGood
        | _, inr e => Raised e
        end).
(** a history of requests *)
Fixpoint answers (st : fit_state) (qs : list request) : fit_state * list response :=
  match qs with
  | [] => (st, [])
  | q :: qs' => let '(st1, r) := answer st q in let '(st2, rs) := answers st1 qs' in (st2, r :: rs)
  end.
(** a new object: __init__ *)
Definition fresh : fit_state := MkState [] None.
End Fit.
