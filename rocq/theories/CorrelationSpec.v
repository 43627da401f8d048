(** Specification vocabulary for the correlation routine. *)
From Verif Require Export CorrelationModel.
Open Scope R_scope.

Fixpoint sum_n (n : nat) (f : nat -> R) : R := match n with O => 0 | S m => sum_n m f + f m end.
Definition vel (v : list C) (k : nat) : C := nth k v (RtoC 0).
(** e^{i theta} *)
Definition phase (theta : R) : C := (cos theta, sin theta).
(** number of correlation times 0, inc, 2 inc, ... below N *)
Definition n_lags (N inc : nat) : nat := (N + inc - 1) / inc.

(** the documented value (comment in the source, rectangular rule): sum over the correlation times
    t_i = i dt and over the origins j of Re(conj(v_j) v_{j+i} e^{i omega t_i}), times dt, normalised
    by the number of correlation times *)
Definition documented_correlation (omega : R) (v : list C) (dt : R) (inc : nat) : R :=
  sum_n (n_lags (length v) inc) (fun q => let i := (q * inc)%nat in
    sum_n (length v - i - inc) (fun j => Re (Cmult (Cmult (Cconj (vel v j)) (vel v (j + i))) (phase (omega * (INR i * dt))))))
  * dt / INR (length v / inc).
(** what the routine returns instead: growing exponential, fixed phase of one radian, twice *)
Definition actual_correlation (omega : R) (v : list C) (dt : R) (inc : nat) : R :=
  2 * sum_n (n_lags (length v) inc) (fun q => let i := (q * inc)%nat in
    sum_n (length v - i - inc) (fun j => exp (omega * (INR i * dt)) * Re (Cmult (Cmult (Cconj (vel v j)) (vel v (j + i))) (phase 1))))
  * dt / INR (length v / inc).
(** the trapezoid rule announced in the source comment: mean of the terms at both ends of each step *)
Definition documented_trapezoid (omega : R) (v : list C) (dt : R) (inc : nat) : R :=
  sum_n (n_lags (length v) inc) (fun q => let i := (q * inc)%nat in
    sum_n (length v - i - inc) (fun j =>
      (Re (Cmult (Cmult (Cconj (vel v j)) (vel v (j + i + inc))) (phase (omega * (INR (i + inc) * dt)))) +
       Re (Cmult (Cmult (Cconj (vel v j)) (vel v (j + i))) (phase (omega * (INR i * dt))))) / 2))
  * dt / INR (length v / inc).
(** what the routine returns instead: three growing exponentials, the last one without the time step *)
Definition actual_trapezoid (omega : R) (v : list C) (dt : R) (inc : nat) : R :=
  sum_n (n_lags (length v) inc) (fun q => let i := (q * inc)%nat in
    sum_n (length v - i - inc) (fun j =>
      exp (omega * (INR i * dt)) * Re (Cmult (Cmult (Cconj (vel v j)) (vel v (j + i))) (phase 1)) +
      exp (omega * (INR (i + inc) * dt)) * Re (Cmult (Cmult (Cconj (vel v j)) (vel v (j + i + inc))) (phase 1)) +
      exp (omega * INR (i + inc)) * Re (Cmult (Cmult (Cconj (vel v j)) (vel v (j + i))) (phase 1))))
  * dt / INR (length v / inc).
