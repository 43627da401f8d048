(** C17, C18: the direct correlation routine. *)
From Verif Require Import CorrelationModel CorrelationSpec CorrelationProofs.
From Coq Require Import Lra.
Open Scope R_scope.

(** C17, full statement false: for constant velocity 1 (three samples, unit step) the returned value
    exceeds every bound as omega grows, while the documented value never exceeds 1. *)
Theorem C17_documented_formula_refuted :
  forall B, exists omega x,
  EvaluateCorrelation 4 omega [RtoC 1; RtoC 1; RtoC 1] 1 1 true = Number x /\ B < x /\
  documented_correlation omega [RtoC 1; RtoC 1; RtoC 1] 1 1 <= 1.
Proof.
  intros B. destruct (unbounded B) as [w [H1 H2]]. exists w, (actual_correlation w ones 1 1).
  split; [|split; assumption]. apply (evaluate_value ones w 1 1 4); simpl; lia.
Qed.
Print Assumptions C17_documented_formula_refuted.
(** What it does return, for every input (rectangular rule). *)
Theorem C17_returned_value_partial :
  forall v omega dt inc fuel, (1 <= inc)%nat -> (inc <= length v)%nat -> (length v < fuel)%nat ->
  EvaluateCorrelation fuel omega v dt (Z.of_nat inc) true = Number (actual_correlation omega v dt inc).
Proof. exact evaluate_value. Qed.
Print Assumptions C17_returned_value_partial.
(** The trapezoid option has the same defect and weighs its three terms by 1 each. *)
Theorem C17_trapezoid_value_partial :
  forall v omega dt inc fuel, (1 <= inc)%nat -> (inc <= length v)%nat -> (length v < fuel)%nat ->
  EvaluateCorrelation fuel omega v dt (Z.of_nat inc) false = Number (actual_trapezoid omega v dt inc).
Proof. exact evaluate_trapezoid. Qed.
Print Assumptions C17_trapezoid_value_partial.
Theorem C17_documented_trapezoid_refuted :
  forall B, exists omega x,
  EvaluateCorrelation 4 omega [RtoC 1; RtoC 1; RtoC 1] 1 1 false = Number x /\ B < x /\
  documented_trapezoid omega [RtoC 1; RtoC 1; RtoC 1] 1 1 <= 1.
Proof.
  intros B. destruct (unbounded_trap B) as [w H]. exists w, (actual_trapezoid w ones 1 1).
  split; [|split; [assumption|apply documented_trap_ones]]. apply (evaluate_trapezoid ones w 1 1 4); simpl; lia.
Qed.
Print Assumptions C17_documented_trapezoid_refuted.
(** The returned array has one entry per requested frequency f (in THz), evaluated at 2 pi f. *)
Theorem C17_returned_array_partial :
  forall freqs v dt inc fuel method, (1 <= inc)%nat -> (inc <= length v)%nat -> (length v < fuel)%nat ->
  length (correlation_par fuel freqs v dt (Z.of_nat inc) method) = length freqs /\
  forall i f, nth_error freqs i = Some f ->
  nth_error (correlation_par fuel freqs v dt (Z.of_nat inc) method) i =
  Some (Number (if method then actual_correlation (2 * PI * f) v dt inc else actual_trapezoid (2 * PI * f) v dt inc)).
Proof.
  intros freqs v dt inc fuel method H1 H2 H3. split; [apply map_length|]. intros i f. apply spectrum_value; assumption.
Qed.
Print Assumptions C17_returned_array_partial.
(** At zero frequency and for real data it is proportional to the documented value. *)
Theorem C17_zero_frequency_partial :
  forall v dt inc, (forall k, snd (vel v k) = 0) -> (1 <= inc)%nat ->
  actual_correlation 0 v dt inc = 2 * cos 1 * documented_correlation 0 v dt inc.
Proof. exact zero_frequency. Qed.
Print Assumptions C17_zero_frequency_partial.
Example C17_nonvacuous : documented_correlation 0 [RtoC 1; RtoC 1; RtoC 1] 1 1 = 1.
Proof. change [RtoC 1; RtoC 1; RtoC 1] with ones. rewrite documented_ones, cos_0. lra. Qed.

(** C18: for every length and every increment >= 1 the loops finish within length+1 outer
    iterations without any access outside the buffer (no UB, not StillRunning), for both methods. *)
Theorem C18_in_bounds_and_terminates :
  forall v omega dt inc method fuel, (1 <= inc)%nat -> (length v < fuel)%nat ->
  ((inc <= length v)%nat -> exists x, EvaluateCorrelation fuel omega v dt (Z.of_nat inc) method = Number x) /\
  ((length v < inc)%nat -> EvaluateCorrelation fuel omega v dt (Z.of_nat inc) method = NotANumber).
Proof. exact evaluate_total. Qed.
Print Assumptions C18_in_bounds_and_terminates.
(** Outside that range it is unsafe: increment 0 never produces a result, a negative one reads
    outside the buffer. *)
Theorem C18_zero_increment :
  forall v omega dt method fuel, v <> [] ->
  forall x, EvaluateCorrelation fuel omega v dt 0 method <> Number x /\ EvaluateCorrelation fuel omega v dt 0 method <> NotANumber.
Proof. exact zero_increment_evaluate. Qed.
Print Assumptions C18_zero_increment.
Theorem C18_negative_increment :
  forall v omega dt inc method fuel, v <> [] -> (inc < 0)%Z -> (1 <= fuel)%nat ->
  EvaluateCorrelation fuel omega v dt inc method = UB.
Proof. exact negative_increment. Qed.
Print Assumptions C18_negative_increment.
(** Every schedule of the parallel loop that completes all iterations gives the sequential result. *)
Theorem C18_schedule_independent :
  forall fuel freqs v dt inc method schedule,
  (forall i, (i < length freqs)%nat -> (2 <= count_occ Nat.eq_dec schedule i)%nat) ->
  forall i, (i < length freqs)%nat ->
  out (par_run (fun i => nth i freqs 0 * 2 * PI)
               (fun w => EvaluateCorrelation fuel w v dt inc method) schedule) i =
  nth_error (correlation_par fuel freqs v dt inc method) i.
Proof.
  intros fuel freqs v dt inc method sch H i Hi. rewrite (par_result _ _ sch (length freqs) H i Hi).
  unfold correlation_par. rewrite nth_error_map, (nth_error_nth' freqs 0 Hi). reflexivity.
Qed.
Print Assumptions C18_schedule_independent.
Example C18_nonvacuous :
  (forall i, (i < length [1; 2; 3])%nat -> (2 <= count_occ Nat.eq_dec [2; 0; 1; 0; 1; 2]%nat i)%nat) /\
  exists x, EvaluateCorrelation 4 5 [RtoC 1; RtoC 2; Ci] 1 (Z.of_nat 2) false = Number x.
Proof.
  split.
  - intros i Hi. simpl in Hi. destruct i as [|[|[|i]]]; simpl; lia.
  - apply (evaluate_total [RtoC 1; RtoC 2; Ci] 5 1 2 false 4); simpl; lia.
Qed.
