(** C120: the maximum entropy spectrum in double precision. *)
From Verif Require Import MemModel MemSpec MemProofs MemFloatModel MemFloatProofs.
From Flocq Require Import Core BinarySingleNaN.
From Coq Require Import Reals ZArith List Lra Lia.
Import ListNotations.
Open Scope R_scope.

(** The program run here with exact arithmetic is the model of the other properties (C19, C20, C98, C119). *)
Theorem C120_same_program : forall data N M, g_coefficients exact data N M = GetCoefficients data N M.
Proof. exact exact_coefficients. Qed.
Print Assumptions C120_same_program.

(** a number that is a finite double, and its value *)
Definition is_number (x : float64) : Prop := is_finite x = true.
Definition value (x : float64) : R := B2R x.
(** the mean square of the samples as the routine computes it, before any prediction *)
Definition computed_mean_square (data : arr float64) (N : nat) : option float64 :=
  match g_power ieee data N with Some p => Some (div ieee p (of_int ieee N)) | None => None end.

(** For every buffer of doubles (infinities and NaN included), at most 2^31 samples (an int) and every number of coefficients: when the
    returned residual power is a number, it is 0, or it is at most the mean square as computed and negative by no more than a
    (N + 2) 2^-48 part of it (2^-1075 covers underflow). *)
Theorem C120_residual_power_partial : forall (data : arr float64) N M residual coefficients, (1 <= N)%nat -> (Z.of_nat N <= 2 ^ 31)%Z ->
  g_coefficients ieee data N M = Some (residual, coefficients) -> is_number residual ->
  value residual = 0 \/
  exists p, computed_mean_square data N = Some p /\ is_number p /\ 0 <= value p /\
  - ((INR N + 2) * / 2 ^ 48 * value p + / 2 ^ 1075) <= value residual <= value p.
Proof.
  intros data N M v c H1 HN E F. destruct (coefficients_float data N M v c H1 HN E) as [p [Ep [->|K]]]; [left; reflexivity|right].
  exists (div ieee p (of_int ieee N)). unfold computed_mean_square. rewrite Ep. split; [reflexivity|]. destruct (K F) as [FP [P0 [Ab Lo]]].
  split; [exact FP|]. split; [exact P0|]. unfold value. assert (B : forall n, bpow radix2 (- Z.of_nat n) = / 2 ^ n).
  { intros n. rewrite bpow_opp. f_equal. rewrite bpow_powerRZ. rewrite <- pow_powerRZ. reflexivity. }
  assert (B48 : 32 * u = / 2 ^ 48). { rewrite <- (B 48%nat). unfold u. change 32 with (bpow radix2 5). rewrite <- bpow_plus. reflexivity. }
  assert (BE : eta = / 2 ^ 1075). { rewrite <- (B 1075%nat). reflexivity. }
  split.
  - rewrite <- B48, <- BE. eapply Rle_trans; [|exact Lo]. assert (0 <= (INR N + 2) * u * B2R (div ieee p (of_int ieee N))) by (apply Rmult_le_pos; [apply Rmult_le_pos; [pose proof (pos_INR N); lra|left; apply u_pos]|exact P0]). lra.
  - eapply Rle_trans; [apply Rle_abs|exact Ab].
Qed.
Print Assumptions C120_residual_power_partial.

(** The samples 1.1343642416... and the next double, no imaginary part.  m * 2^e *)
Definition dbl (m e : Z) : float64 := literal m e.
Definition first : float64 := dbl 0x12265b1f236eb0 (-52).
Definition second : float64 := dbl 0x12265b1f236eb1 (-52).
Definition nothing : float64 := dbl 0 0.
Definition real_samples : arr float64 := of_list [nothing; first; second].
Definition imaginary_samples : arr float64 := of_list [nothing; nothing; nothing].
Definition at_zero : nat -> float64 * float64 := fun _ => (dbl 1 0, dbl 0 0).

Lemma read_one (o : option float64) a : option_map B2SF o = Some a -> exists w, o = Some w /\ B2SF w = a.
Proof. destruct o as [w|]; intros E; cbn [option_map] in E; [|discriminate E]. injection E as E. exists w. split; [reflexivity|exact E]. Qed.
Lemma read_result (o : option (float64 * arr float64)) a b :
  option_map (fun rc => (B2SF (fst rc), option_map B2SF (rd (snd rc) 1))) o = Some (a, Some b) ->
  exists v c r, o = Some (v, c) /\ B2SF v = a /\ rd c 1 = Some r /\ B2SF r = b.
Proof.
  destruct o as [[v c]|]; intros E; cbn [option_map fst snd] in E; [|discriminate E].
  pose proof (f_equal (fun o => match o with Some p => fst p | None => a end) E) as Ev. pose proof (f_equal (fun o => match o with Some p => snd p | None => None end) E) as Ec. cbn [fst snd] in Ev, Ec.
  destruct (read_one _ _ Ec) as [r [Er Eb]]. exists v, c, r. split; [reflexivity|]. split; [exact Ev|]. split; assumption.
Qed.

(** The reflection coefficient exceeds 1 and the residual power is negative; with one coefficient the spectrum at frequency 0, where
    cexp and cpow return exactly 1, is below -10^16 times the time step. *)
Theorem C120_negative_spectrum_refuted :
  exists residual coefficients power, g_coefficients ieee real_samples 2 1 = Some (residual, coefficients) /\
    is_number residual /\ value residual < 0 /\
    (exists r, rd coefficients 1 = Some r /\ 1 < value r) /\
    g_frequency ieee at_zero real_samples imaginary_samples 2 1 (dbl 1 0) = Some power /\ is_number power /\ value power < - 10 ^ 16.
Proof.
  assert (E1 : option_map (fun rc => (B2SF (fst rc), option_map B2SF (rd (snd rc) 1))) (g_coefficients ieee real_samples 2 1) =
    Some (SpecFloat.S754_finite true 5795152009008074 (-103), Some (SpecFloat.S754_finite false 4503599627370497 (-52)))) by (vm_compute; reflexivity).
  assert (E2 : option_map B2SF (g_frequency ieee at_zero real_samples imaginary_samples 2 1 (dbl 1 0)) = Some (SpecFloat.S754_finite true 5795152009008074 1)) by (vm_compute; reflexivity).
  apply read_result in E1. apply read_one in E2. destruct E1 as [v [c [r [E [Ev [Er Ec]]]]]]. destruct E2 as [w [Ew E2]].
  exists v, c, w. unfold is_number, value. rewrite <- !is_finite_SF_B2SF, <- !SF2R_B2SF, Ev, E2. cbn [is_finite_SF SF2R SpecFloat.cond_Zopp cond_Zopp].
  split; [exact E|]. split; [reflexivity|]. split; [apply F2R_lt_0; reflexivity|]. split.
  - exists r. split; [exact Er|]. rewrite <- SF2R_B2SF, Ec. cbn [SF2R cond_Zopp]. unfold F2R. cbn [Fnum Fexp]. change (bpow radix2 (-52)) with (/ IZR 4503599627370496). lra.
  - split; [exact Ew|]. split; [reflexivity|]. unfold F2R. cbn [Fnum Fexp cond_Zopp]. change (bpow radix2 1) with (IZR 2). simpl. lra.
Qed.
Print Assumptions C120_negative_spectrum_refuted.
(** a case of the bound: 1.0 and 0.5 in double precision have a positive residual, a number *)
Definition halves : arr float64 := of_list [nothing; dbl 1 0; dbl 1 (-1)].
Example C120_nonvacuous : exists residual c, g_coefficients ieee halves 2 1 = Some (residual, c) /\ is_number residual /\ 0 < value residual.
Proof.
  assert (E : option_map (fun rc => (B2SF (fst rc), option_map B2SF (rd (snd rc) 1))) (g_coefficients ieee halves 2 1) =
    Some (SpecFloat.S754_finite false 8106479329266890 (-55), Some (SpecFloat.S754_finite false 7205759403792794 (-53)))) by (vm_compute; reflexivity).
  apply read_result in E. destruct E as [v [c [r [E [Ev _]]]]]. exists v, c. unfold is_number, value.
  rewrite <- is_finite_SF_B2SF, <- SF2R_B2SF, Ev. split; [exact E|]. split; [reflexivity|]. apply F2R_gt_0. reflexivity.
Qed.
