(** C121: a sample that is not a number is not hidden by a power spectrum (double precision). *)
From Verif Require Import MemModel MemFloatModel MemFloatProofs CorrelationModel InvalidSampleModel InvalidSampleProofs.
From Flocq Require Import Core BinarySingleNaN.
From Coq Require Import Reals ZArith List Lia.
Import ListNotations.
Open Scope nat_scope.

(** neither infinite nor NaN *)
Definition is_number (x : float64) : Prop := is_finite x = true.
Definition sample_is_number (x : float64 * float64) : Prop := is_number (fst x) /\ is_number (snd x).
Definition not_a_number : float64 * float64 := (B754_nan, B754_nan).

(** Maximum entropy, fewer coefficients than samples (the Python caller insists on it): if the spectrum at any one frequency is a number,
    whatever cexp and cpow return, then all N samples, real and imaginary, are numbers.  (Samples are data[1..N], see C19.) *)
Theorem C121_maximum_entropy : forall z real imaginary N M dt power, 2 <= N -> M < N ->
  g_frequency ieee z real imaginary N M dt = Some power -> is_number power ->
  forall k, 1 <= k <= N -> (exists x, rd real k = Some x /\ is_number x) /\ (exists y, rd imaginary k = Some y /\ is_number y).
Proof.
  intros z dr di N M dt v HN HM E F k Hk. assert (R : (exists x, rd dr k = Some x) /\ exists y, rd di k = Some y).
  { unfold g_frequency in E. apply bind_some in E as [r [Er E]]. apply bind_some in E as [i [Ei _]]. unfold g_coefficients in Er, Ei. apply bind_some in Er as [p [Ep _]]. apply bind_some in Ei as [q [Eq _]].
    split; eapply power_reads; eassumption. }
  destruct R as [[x Ex] [y Ey]]. split; [exists x; split; [exact Ex|]|exists y; split; [exact Ey|]].
  - destruct (bad_dec x) as [B|G]; [|exact G]. refine (bad_fin v _ (frequency_bad z dr di N M dt v k x HN HM E Hk (or_introl Ex) B) F).
  - destruct (bad_dec y) as [B|G]; [|exact G]. refine (bad_fin v _ (frequency_bad z dr di N M dt v k y HN HM E Hk (or_intror Ey) B) F).
Qed.
Print Assumptions C121_maximum_entropy.
(** With as many coefficients as samples or more every buffer, whatever it contains, has residual power 0 and with it spectrum 0. *)
Theorem C121_too_many_coefficients_refuted : forall data N M residual coefficients, 1 <= N <= M ->
  g_coefficients ieee data N M = Some (residual, coefficients) -> residual = zero ieee.
Proof. intros data N M v c [H1 H2] E. exact (coefficients_too_many data N M v c H1 H2 E). Qed.
Print Assumptions C121_too_many_coefficients_refuted.

Section Correlation.
(** the infinities annex G recovers, cexp *)
Context (rescue : float64 * float64 -> float64 * float64 -> option (float64 * float64)) (phase phase' : Z -> float64 * float64).
Definition direct := g_correlation ieee (complex_times rescue) complex_conj phase phase'.

(** Direct method: a number is returned only if all samples but the last [step] are numbers; with the trapezoidal rule those from [step] on
    are numbers too. *)
Theorem C121_correlation_partial : forall fuel velocity dt (step : nat) rectangular power, 1 <= step ->
  direct fuel velocity dt (Z.of_nat step) rectangular = Some power -> is_number power ->
  forall k sample, nth_error velocity k = Some sample ->
    (k + step < length velocity -> sample_is_number sample) /\
    (rectangular = false -> step <= k -> sample_is_number sample).
Proof.
  intros fuel v dt st method x Hs E F k a Ea. assert (Hk : k < length v) by (apply nth_error_Some; congruence). pose proof (correlation_good rescue phase phase' fuel v dt (Z.of_nat st) method x E F) as G.
  split.
  - intros H. destruct (G k) as [[b [Eb Ob]] _]; [lia|lia|]. unfold g_vread in Eb. destruct (Z.leb_spec 0 (Z.of_nat k)); [|lia]. rewrite Nat2Z.id in Eb. assert (b = a) by congruence. subst b. exact Ob.
  - intros Hm H. destruct (G (k - st)) as [_ G2]; [lia|lia|]. destruct (G2 Hm) as [b [Eb Ob]]. replace (Z.of_nat (k - st) + Z.of_nat st)%Z with (Z.of_nat k) in Eb by lia.
    unfold g_vread in Eb. destruct (Z.leb_spec 0 (Z.of_nat k)); [|lia]. rewrite Nat2Z.id in Eb. assert (b = a) by congruence. subst b. exact Ob.
Qed.
(** Rectangular rule (the default): the last [step] samples (default 10) have no influence at all; they may be NaN. *)
Theorem C121_correlation_tail_refuted : forall fuel velocity last dt step, length last = step ->
  direct fuel (velocity ++ last) dt (Z.of_nat step) true = direct fuel (velocity ++ repeat not_a_number step) dt (Z.of_nat step) true.
Proof.
  intros fuel v w dt st L. unfold direct. apply correlation_tail; [rewrite !app_length, repeat_length; lia| |lia].
  intros k Hk. rewrite app_length, L in Hk. unfold g_vread. destruct (Z.leb_spec 0 k); [|reflexivity]. rewrite !nth_error_app1 by lia. reflexivity.
Qed.
End Correlation.
Print Assumptions C121_correlation_partial.
Print Assumptions C121_correlation_tail_refuted.
(** The program run here with exact arithmetic is the model of C17 and C18. *)
Theorem C121_same_program : forall fuel freq v dt (step : nat) rectangular x, 1 <= step ->
  EvaluateCorrelation fuel freq v dt (Z.of_nat step) rectangular = Number x ->
  g_correlation exact Cmult Cconj (fun m => CorrelationModel.cexp (Cbuild (freq * (IZR m * dt)) 1)) (fun m => CorrelationModel.cexp (Cbuild (freq * IZR m) 1))
    fuel v dt (Z.of_nat step) rectangular = Some x.
Proof. intros fuel freq v dt st method x Hs E. apply correlation_exact; [lia|exact E]. Qed.
Print Assumptions C121_same_program.

(** cases: [1; 1/2] has a spectrum that is a number; [NaN; 1] has one coefficient and no number, two coefficients and the residual 0 *)
Definition d (m e : Z) : float64 := literal m e.
Definition flat : nat -> float64 * float64 := fun _ => (d 1 0, d 0 0).
Example C121_nonvacuous :
  option_map (@is_finite 53 1024) (g_frequency ieee flat (of_list [d 0 0; d 1 0; d 1 (-1)]) (of_list [d 0 0; d 0 0; d 0 0]) 2 1 (d 1 0)) = Some true /\
  option_map (@is_finite 53 1024) (g_frequency ieee flat (of_list [d 0 0; B754_nan; d 1 (-1)]) (of_list [d 0 0; d 0 0; d 0 0]) 2 1 (d 1 0)) = Some false /\
  option_map (fun r => B2SF (fst r)) (g_coefficients ieee (of_list [d 0 0; B754_nan; d 1 (-1)]) 2 2) = Some (SpecFloat.S754_zero false).
Proof. vm_compute. repeat split. Qed.
Example C121_nonvacuous_correlation :
  option_map B2SF (direct (fun _ _ => None) (fun _ => (d 1 0, d 0 0)) (fun _ => (d 1 0, d 0 0)) 9 [(d 1 0, d 0 0); (d 1 0, d 1 0); not_a_number] (d 1 0) 1 true) =
  Some (SpecFloat.S754_finite false 6004799503160661 (-51)).
Proof. vm_compute. reflexivity. Qed.
