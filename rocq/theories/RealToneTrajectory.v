(** C116 joined to C100: the FFT power spectrum of a mode of the ideal harmonic trajectory peaks at the mode's own frequency. *)
From Verif Require Import Base SupercellModel PhonopyLinkModel ProjectionModel ProjectionSpec RoundTripProps.
From Verif Require ProjectionSymmetryProps Rounding SpectraModel SpectraProofs FftProps FftModel FftSpec RealToneProps.
From Coq Require Import Lra Lia Permutation.
From Coquelicot Require Import Complex.
From Coq Require Import List. Import ListNotations.
Open Scope R_scope.

(** the crystal, the wave vectors, the trajectory and the velocities are those of C100_mode_signal; the N analysed samples are those at which the
    velocity is the central difference (of np.gradient's output: all but the two end samples) *)
Theorem C116_mode_of_ideal_trajectory : forall inv cell pos nx ny nz types m nq nf Q fr ev T mf p0 dt h j j' l v vc argsort f0 f1 freqs N s,
  crystal inv cell pos nx ny nz types m -> wave_vectors nx ny nz nq Q -> h <> 0 -> 0 <= mf -> (0 < length pos)%nat ->
  (j < nq)%nat -> (j' < nq)%nat -> integral (vadd (Q j) (Q j')) -> (l < nf)%nat -> orthonormal (length pos) 3 nf (ev j) ->
  (forall k, (k < nf)%nat -> fr j' k = fr j k) ->
  (forall k ty c, (k < nf)%nat -> (ty < length pos)%nat -> (c < 3)%nat -> ev j' k ty c = Cmult (Cconj (ev j k ty c)) (cell_phase inv cell pos (vadd (Q j) (Q j')) ty)) ->
  let x := ideal inv cell pos nx ny nz types m nq nf Q fr ev T mf p0 dt in
  (forall t i c, (t < N)%nat -> (i < length pos * (nx * ny * nz))%nat -> (c < 3)%nat -> v (S t) i c = RtoC ((x (S (S t)) i c - x t i c) / (2 * h))) ->
  at_wave_vector inv cell pos nx ny nz types m v (Q j) = Some vc ->
  0 < dt -> (1 <= N)%nat -> (1 <= Rounding.around (1 / (dt * (f1 - f0))))%Z ->
  let n := RealToneProps.piece_samples N f0 f1 dt in
  FftSpec.sorts argsort (FftModel.fftfreq n dt) -> FftSpec.resolved n s -> fr j l = FftSpec.grid_frequency n dt s -> mf < Rabs (fr j l) ->
  exists out, FftModel.numpy_power argsort (f0 :: f1 :: freqs) (map (fun t => project_onto_phonon (length pos) 3 nf vc (ev j) (S t) l) (seq 0 N)) dt = Some out /\
  forall k, nth_error (f0 :: f1 :: freqs) k = Some (fr j l) -> exists top, nth_error out k = Some top /\ (forall y, In y out -> y <= top) /\
    ((2 * Z.abs s <> Z.of_nat n)%Z -> 3 / 20 * INR n * dt * (exp p0 * (sqrt (3 * kB * T) / (2 * PI * fr j l)) * (sin (2 * PI * fr j l * dt) / h)) ^ 2 <= top).
Proof.
  intros inv cell pos nx ny nz types m nq nf Q fr ev T mf p0 dt h j j' l v vc argsort f0 f1 freqs N s Hcr HW Hh Hmf Hp Hj Hj' Hjj Hl Ho Hf He x Hv EA Hdt HN Hpp n Hs Rs Ef Hcut.
  set (A := exp p0 * (sqrt (3 * kB * T) / (2 * PI * fr j l)) * (sin (2 * PI * fr j l * dt) / h)).
  set (phi := 2 * PI * fr j l * dt + PI / 2).
  assert (E : map (fun t => project_onto_phonon (length pos) 3 nf vc (ev j) (S t) l) (seq 0 N) = RealToneProps.oscillation A phi (FftSpec.grid_frequency n dt s) dt N).
  { unfold RealToneProps.oscillation. apply map_ext_in. intros t Ht. apply in_seq in Ht. rewrite <- Ef.
    rewrite (C100_mode_signal inv cell pos nx ny nz types m nq nf Q fr ev T mf p0 dt h j j' l v vc t Hcr HW Hh Hmf Hp Hj Hj' Hjj Hl Ho Hf He (fun i c Hi Hc => Hv t i c ltac:(lia) Hi Hc) EA).
    f_equal. destruct (Rlt_dec mf (Rabs (fr j l))) as [_|H]; [|contradiction].
    replace (2 * PI * fr j l * (INR t * dt) + phi) with (PI / 2 + 2 * PI * fr j l * (INR (S t) * dt)) by (unfold phi; rewrite S_INR; ring).
    rewrite cos_plus, cos_PI2, sin_PI2. unfold A. ring. }
  rewrite E. destruct (RealToneProps.C116_oscillation_peaks_at_its_frequency argsort f0 f1 freqs A phi N dt s Hdt HN Hpp Hs Rs) as [out [E1 F]]. fold n in E1, F.
  exists out. split; [exact E1|]. intros k K. rewrite Ef in K. destruct (F k K) as [top [T1 [T2 T3]]]. exists top. split; [exact T1|]. split; [exact T2|].
  apply T3. intros ->. rewrite Ef in Hcut. unfold FftSpec.grid_frequency in Hcut. replace (0 / (INR n * dt)) with 0 in Hcut by (unfold Rdiv; ring). rewrite Rabs_R0 in Hcut. lra.
Qed.
Print Assumptions C116_mode_of_ideal_trajectory.
(** a concrete case: the two-cell crystal of C100_nonvacuous with modes of 1 THz sampled 24 times every 1/8 ps, spectrum requested every THz *)
Example C116_trajectory_nonvacuous : forall T, 0 < T ->
  let Q i := match i with O => vzero | _ => V3 (1/2) 0 0 end in
  let ev (_ k _ c : nat) := if (k =? c)%nat then RtoC 1 else RtoC 0 in
  let x := ideal (fun m => m) mid [vzero] 2 1 1 [0; 0]%nat (fun _ => 1) 2 3 Q (fun _ _ => 1) ev T 0 0 (1/8) in
  let v s i c := match s with O => RtoC 0 | S t => RtoC ((x (S (S t)) i c - x t i c) / (2 * (1/8))) end in
  exists vc, at_wave_vector (fun m => m) mid [vzero] 2 1 1 [0; 0]%nat (fun _ => 1) v (Q 1%nat) = Some vc /\
  exists out top, FftModel.numpy_power FftProps.rotation [0; 1; 2; 3] (map (fun t => project_onto_phonon 1 3 3 vc (ev 1%nat) (S t) 2) (seq 0 24)) (1/8) = Some out /\
  nth_error out 1 = Some top /\ 0 < top /\ forall y, In y out -> y <= top.
Proof.
  intros T HT Q ev x v.
  destruct (C100_nonvacuous T (1/8) HT ltac:(lra)) as [vc [E _]]. exists vc. split; [exact E|].
  assert (Ea : Rounding.around (1 / (1 / 8 * (1 - 0))) = 8%Z) by (replace (1 / (1 / 8 * (1 - 0))) with (IZR 8) by field; apply Rounding.around_IZR).
  assert (En : RealToneProps.piece_samples 24 0 1 (1/8) = 8%nat) by (unfold RealToneProps.piece_samples; rewrite Ea; reflexivity).
  assert (Ef : 1 = FftSpec.grid_frequency 8 (1/8) 1) by (unfold FftSpec.grid_frequency; cbn [INR]; field).
  assert (G := C116_mode_of_ideal_trajectory (fun m => m) mid [vzero] 2 1 1 [0; 0]%nat (fun _ => 1) 2 3 Q (fun _ _ => 1) ev T 0 0 (1/8) (1/8) 1 1 2 v vc FftProps.rotation 0 1 [2; 3] 24 1).
  cbv zeta in G. rewrite En in G.
  destruct G as [out [E1 F]]; try lia; try lra; try exact E.
  - repeat split; try lia; try reflexivity; try (intros; lra); unfold mmul, mid, vmul, vadd, vscale; cbn; f_equal; apply vec_eq; cbn; ring.
  - repeat split; [intros i _; destruct i as [|i]; [exists 0%Z, 0%Z, 0%Z|exists 1%Z, 0%Z, 0%Z]; unfold Q, vzero; cbn; repeat split; lra|].
    intros i k Hi Hk (a & b & c & X). apply (f_equal vx) in X. cbn in X.
    destruct i as [|[|i]], k as [|[|k]]; try lia; exfalso; unfold Q, vzero in X; cbn in X.
    + assert (Y : IZR (2 * a + 1) = 0) by (rewrite plus_IZR, mult_IZR; lra). apply eq_IZR in Y. lia.
    + assert (Y : IZR (2 * a - 1) = 0) by (rewrite minus_IZR, mult_IZR; lra). apply eq_IZR in Y. lia.
  - cbn; lia.
  - exists 1%Z, 0%Z, 0%Z. unfold Q. apply vec_eq; cbn; lra.
  - intros k k' Hk Hk'. destruct k as [|[|[|k]]], k' as [|[|[|k']]]; try lia; unfold ev; cbn; apply injective_projections; cbn; ring.
  - intros; reflexivity.
  - intros k ty c Hk Hty Hc. unfold cell_phase. destruct ty; [|cbn in Hty; lia]. cbn [nth]. replace (vdot _ vzero) with 0 by (unfold vdot, vzero; cbn; ring). rewrite ProjectionSymmetryProps.expmi_0. unfold ev. destruct (k =? c)%nat; apply injective_projections; cbn; ring.
  - intros t i c _ _ _. reflexivity.
  - apply FftProps.C70_nonvacuous; [lia|lra].
  - unfold FftSpec.resolved. cbn. lia.
  - rewrite Rabs_R1. lra.
  - destruct (F 1%nat eq_refl) as [top [T1 [T2 T3]]]. exists out, top. split; [exact E1|]. split; [exact T1|]. split; [|exact T2].
    eapply Rlt_le_trans; [|apply T3; cbn; lia]. rewrite exp_0. replace (2 * PI * 1 * (1 / 8)) with (PI / 4) by field. rewrite sin_PI4.
    assert (P1 := PI_RGT_0). assert (P2 : 0 < sqrt 2) by (apply sqrt_lt_R0; lra). assert (P3 : 0 < sqrt (3 * kB * T)) by (apply sqrt_lt_R0; unfold kB; nra).
    cbn [INR]. apply Rmult_lt_0_compat; [lra|]. apply pow_lt. repeat apply Rmult_lt_0_compat; try lra; try (apply Rinv_0_lt_compat; lra).
Qed.
