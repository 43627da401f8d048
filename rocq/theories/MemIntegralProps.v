(** C119: the area under the maximum entropy spectrum is the mean square velocity. *)
From Verif Require Import MemModel MemSpec MemProofs MemProps MemIntegralProofs.
From Coquelicot Require Import Coquelicot.
From Coq Require Import Reals Lra Lia Psatz List.
From Coquelicot Require Import Complex.
Open Scope R_scope.

(** what the routine finds in a buffer of velocities: elements 1 .. N (C19: element 0 is never read) *)
Definition holds (data : arr R) (N : nat) (x : nat -> R) : Prop := forall j, (1 <= j <= N)%nat -> rd data j = Some (x j).
(** the series is identically zero, or the linear prediction of order M leaves an error *)
Definition predicted_with_error (data : arr R) (x : nat -> R) (N M : nat) : Prop :=
  (forall j, (1 <= j <= N)%nat -> x j = 0) \/ (exists msd c, GetCoefficients data N M = Some (msd, c) /\ msd <> 0).

Ltac inR := match goal with |- ?a = ?b => change (@eq R a b) end.
Lemma int_scal (f : R -> R) a b k (l : R) : is_RInt f a b l -> is_RInt (fun t => k * f t) a b (k * l).
Proof. exact (fun H => is_RInt_scal f a b k l H). Qed.
Lemma int_lin (f : R -> R) u v a b (l : R) : is_RInt f (u * a + v) (u * b + v) l -> is_RInt (fun t => u * f (u * t + v)) a b l.
Proof. exact (fun H => is_RInt_comp_lin f u v a b l H). Qed.
Lemma int_swap (f : R -> R) a b (l : R) : is_RInt f a b l -> is_RInt f b a (- l).
Proof. exact (fun H => is_RInt_swap f b a l H). Qed.
Lemma polar_neg t : polar 1 (- t) = Cconj (polar 1 t).
Proof. unfold polar, Cconj. cbn [fst snd]. rewrite cos_neg, sin_neg. f_equal; ring. Qed.
Lemma Cpow_Cconj z i : Cpow (Cconj z) i = Cconj (Cpow z i).
Proof. induction i as [|i IH]; cbn [Cpow]; [symmetry; apply Cconj_R|]. rewrite IH, Cconj_mult. reflexivity. Qed.
Lemma density_even a M m t : spectral_density a M m (polar 1 (- t)) = spectral_density a M m (polar 1 t).
Proof.
  unfold spectral_density. f_equal. f_equal. rewrite <- (Cmod_conj (error_filter a M (polar 1 t))). f_equal. rewrite polar_neg. unfold error_filter.
  rewrite Cconj_minus, Cconj_R, Cconj_csum. f_equal. apply csum_from_ext. intros j _. rewrite Cconj_mult, Cconj_R, Cpow_Cconj. reflexivity.
Qed.
Lemma polar_period t : polar 1 (t + 2 * PI) = polar 1 t.
Proof. unfold polar. replace (t + 2 * PI) with (t + 2 * INR 1 * PI) by (cbn [INR]; ring). rewrite cos_period, sin_period. reflexivity. Qed.
Lemma burg_spectrum_even x N M t : burg_spectrum x N M (polar 1 (- t)) = burg_spectrum x N M (polar 1 t).
Proof. unfold burg_spectrum. cbv zeta. destruct (Req_EM_T _ 0); [reflexivity|apply density_even]. Qed.
Lemma burg_period_integral x N M : b_msd (burg x N M) <> 0 \/ mean_square x N = 0 ->
  is_RInt (fun t => burg_spectrum x N M (polar 1 t)) 0 (2 * PI) (2 * PI * mean_square x N).
Proof.
  intros [Hm|Hz].
  - apply (is_RInt_ext (fun t => spectral_density (b_a (burg x N M)) M (b_msd (burg x N M)) (polar 1 t))); [|apply phase_integral; exact Hm].
    intros t _. unfold burg_spectrum. cbv zeta. destruct (Req_EM_T _ 0); [contradiction|reflexivity].
  - assert (Z : b_msd (burg x N M) = 0).
    { assert (A := burg_msd_nonneg x N M). assert (B := burg_msd_mono_le x N 0 M ltac:(lia)). cbn [burg burg_init b_msd] in B. lra. }
    rewrite Hz, Rmult_0_r. apply (is_RInt_ext (fun _ => 0)).
    + intros t _. unfold burg_spectrum. cbv zeta. destruct (Req_EM_T _ 0); [reflexivity|contradiction].
    + assert (K := is_RInt_const (V := R_NormedModule) 0 (2 * PI) 0). unfold scal in K; cbn in K; unfold mult in K; cbn in K. rewrite Rmult_0_r in K. exact K.
Qed.
Lemma burg_half_integral x N M : b_msd (burg x N M) <> 0 \/ mean_square x N = 0 ->
  is_RInt (fun t => burg_spectrum x N M (polar 1 t)) 0 PI (PI * mean_square x N).
Proof.
  intros H. assert (I := burg_period_integral x N M H). set (f := fun t => burg_spectrum x N M (polar 1 t)) in *. pose proof PI_RGT_0 as P.
  assert (X : exists J : R, is_RInt f 0 PI J) by (apply (@ex_RInt_Chasles_1 R_CompleteNormedModule f 0 PI (2 * PI)); [lra|eexists; exact I]).
  destruct X as [J HJ]. assert (K : is_RInt f PI (2 * PI) J).
  { assert (C := int_lin f (-1) (2 * PI) PI (2 * PI) (- J)).
    replace (-1 * PI + 2 * PI) with PI in C by ring. replace (-1 * (2 * PI) + 2 * PI) with 0 in C by ring.
    specialize (C (int_swap f 0 PI J HJ)). apply (int_scal _ _ _ (-1)) in C. replace (-1 * - J) with (J : R) in C by ring.
    eapply is_RInt_ext; [|exact C]. intros t _. cbv beta. inR. unfold f.
    replace (-1 * t + 2 * PI) with ((- t) + 2 * PI) by ring. rewrite polar_period, burg_spectrum_even. ring. }
  assert (T := is_RInt_Chasles f 0 PI (2 * PI) J J HJ K). pose proof (is_RInt_unique _ _ _ _ T) as U1. pose proof (is_RInt_unique _ _ _ _ I) as U2. rewrite U1 in U2.
  unfold plus in U2; cbn in U2. replace (PI * mean_square x N) with J by lra. exact HJ.
Qed.
Lemma burg_frequency_integral x N M dt : 0 < dt -> b_msd (burg x N M) <> 0 \/ mean_square x N = 0 ->
  is_RInt (fun f => dt * burg_spectrum x N M (polar 1 (2 * PI * dt * f))) 0 (/ (2 * dt)) (mean_square x N / 2).
Proof.
  intros Hdt H. pose proof PI_RGT_0 as P. assert (I := burg_half_integral x N M H).
  assert (C := int_lin (fun t => burg_spectrum x N M (polar 1 t)) (2 * PI * dt) 0 0 (/ (2 * dt)) (PI * mean_square x N)).
  replace (2 * PI * dt * 0 + 0) with 0 in C by ring. replace (2 * PI * dt * / (2 * dt) + 0) with PI in C by (field; lra).
  specialize (C I). apply (int_scal _ _ _ (/ (2 * PI))) in C.
  replace (/ (2 * PI) * (PI * mean_square x N)) with (mean_square x N / 2) in C by (field; lra).
  eapply is_RInt_ext; [|exact C]. intros t _. cbv beta. inR. rewrite Rplus_0_r. field. lra.
Qed.

(** For every recorded velocity (real and imaginary part x, y, read from the buffers), number of samples, number of coefficients
    and time step, the spectrum the routine returns integrates to half the mean square velocity over the positive frequencies
    up to the Nyquist frequency 1 / (2 dt), and to the mean square velocity over all of them. *)
Theorem C119_mem_area_partial : forall (x y : nat -> R) dr di N M dt, (2 <= N)%nat -> 0 < dt -> holds dr N x -> holds di N y ->
  predicted_with_error dr x N M -> predicted_with_error di y N M ->
  let mean_square_velocity := sum_from 1 N (fun j => x j ^ 2 + y j ^ 2) / INR N in
  exists spectrum : R -> R, (forall f, mem_frequency dr di N M dt f = Some (spectrum f)) /\
  is_RInt spectrum 0 (/ (2 * dt)) (mean_square_velocity / 2) /\
  is_RInt spectrum (- / (2 * dt)) (/ (2 * dt)) mean_square_velocity.
Proof.
  intros x y dr di N M dt HN Hdt Hx Hy Px Py V.
  exists (fun f => dt * burg_spectrum x N M (polar 1 (2 * PI * dt * f)) + dt * burg_spectrum y N M (polar 1 (2 * PI * dt * f))).
  assert (EV : V = mean_square x N + mean_square y N).
  { unfold V, mean_square, Rdiv. rewrite <- Rmult_plus_distr_r. f_equal. clear.
    assert (Q : forall n a, sum_from a n (fun j => x j ^ 2 + y j ^ 2) = sum_from a n (fun j => x j ^ 2) + sum_from a n (fun j => y j ^ 2)) by (induction n as [|n IH]; intros a; cbn [sum_from]; [ring|]; rewrite IH; ring). apply Q. }
  assert (G : forall z data, holds data N z -> predicted_with_error data z N M -> b_msd (burg z N M) <> 0 \/ mean_square z N = 0).
  { intros z data Hh [Z|[m [c [E Hm]]]].
    - right. unfold mean_square. rewrite (sum_from_ext _ (fun _ => 0 * 0)) by (intros j Hj; rewrite Z by lia; ring). rewrite sum_from_scal_r. unfold Rdiv. ring.
    - left. destruct (GetCoefficients_ok z data N M HN Hh) as [v [c' [E' [Ev _]]]]. rewrite E' in E. injection E as <- <-. rewrite <- Ev. exact Hm. }
  assert (Gx := G x dr Hx Px). assert (Gy := G y di Hy Py).
  assert (P : is_RInt (fun f => dt * burg_spectrum x N M (polar 1 (2 * PI * dt * f)) + dt * burg_spectrum y N M (polar 1 (2 * PI * dt * f))) 0 (/ (2 * dt)) (V / 2)).
  { replace (V / 2) with (plus (mean_square x N / 2) (mean_square y N / 2)) by (rewrite EV; unfold plus; cbn; field).
    apply (is_RInt_plus (fun f => dt * burg_spectrum x N M (polar 1 (2 * PI * dt * f))) (fun f => dt * burg_spectrum y N M (polar 1 (2 * PI * dt * f)))); apply burg_frequency_integral; assumption. }
  split; [|split; [exact P|]].
  - intros f. rewrite (C20_spectrum_formula x y) by assumption. cbv zeta. unfold polar. rewrite !Rmult_1_l. replace (2 * PI * f * dt) with (2 * PI * dt * f) by ring. f_equal. ring.
  - set (s := fun f => dt * burg_spectrum x N M (polar 1 (2 * PI * dt * f)) + dt * burg_spectrum y N M (polar 1 (2 * PI * dt * f))) in *.
    replace V with (plus (V / 2) (V / 2)) by (unfold plus; cbn; field). apply (is_RInt_Chasles s _ 0 _); [|exact P].
    assert (C := int_lin s (-1) 0 (- / (2 * dt)) 0 (- (V / 2))). replace (-1 * - / (2 * dt) + 0) with (/ (2 * dt)) in C by ring. replace (-1 * 0 + 0) with 0 in C by ring.
    specialize (C (int_swap s _ _ _ P)). apply (int_scal _ _ _ (-1)) in C. replace (-1 * - (V / 2)) with (V / 2) in C by ring.
    eapply is_RInt_ext; [|exact C]. intros t _. cbv beta. inR. unfold s. replace (2 * PI * dt * (-1 * t + 0)) with (- (2 * PI * dt * t)) by ring. rewrite !burg_spectrum_even. ring.
Qed.
Print Assumptions C119_mem_area_partial.

Lemma dead_zero x y dr di N M dt freq : (2 <= N)%nat -> holds dr N x -> holds di N y -> b_msd (burg x N M) = 0 -> b_msd (burg y N M) = 0 -> mem_frequency dr di N M dt freq = Some 0.
Proof.
  intros HN Hx Hy Zx Zy. rewrite (mem_frequency_ok x y) by assumption. unfold burg_spectrum. cbv zeta. rewrite Zx, Zy. destruct (Req_EM_T 0 0); [|contradiction]. f_equal. ring.
Qed.
Lemma msd_zero_from x N M : (1 <= M)%nat -> b_msd (burg x N 1) = 0 -> b_msd (burg x N M) = 0.
Proof. intros HM Z. assert (A := burg_msd_nonneg x N M). assert (B := burg_msd_mono_le x N 1 M HM). lra. Qed.
(** It fails for weak signals: whatever the series, when its sum of squares is below 5e-7 the spectrum is 0 at every frequency *)
Theorem C119_weak_signal_refuted : forall (x y : nat -> R) dr di N M dt, (2 <= N)%nat -> (1 <= M)%nat -> holds dr N x -> holds di N y ->
  0 < sum_from 1 N (fun j => x j ^ 2) < 1 / 2000000 -> sum_from 1 N (fun j => y j ^ 2) < 1 / 2000000 ->
  forall f, mem_frequency dr di N M dt f = Some 0.
Proof.
  intros x y dr di N M dt HN HM Hx Hy [_ Lx] Ly f.
  assert (K : forall z, sum_from 1 N (fun j => z j ^ 2) < 1 / 2000000 -> b_msd (burg z N M) = 0).
  { intros z L. apply msd_zero_from; [exact HM|]. cbn [burg]. unfold burg_step. cbn [b_dead burg_init]. destruct (Rlt_dec _ _) as [D|D]; [reflexivity|]. exfalso. apply D.
    unfold burg_den. cbn [b_fwd b_bwd burg_init].
    assert (B : sum_from 1 (N - 1) (fun j => z j ^ 2 + z (j + 1)%nat ^ 2) <= 2 * sum_from 1 N (fun j => z j ^ 2)).
    { replace N with (S (N - 1)) at 2 by lia. clear.
      assert (Q : forall n a, sum_from a n (fun j => z j ^ 2 + z (j + 1)%nat ^ 2) + z a ^ 2 <= 2 * sum_from a (S n) (fun j => z j ^ 2)).
      { induction n as [|n IH]; intros a; cbn [sum_from].
        - pose proof (pow2_ge_0 (z a)). lra.
        - specialize (IH (S a)). cbn [sum_from] in IH. replace (a + 1)%nat with (S a) by lia. pose proof (pow2_ge_0 (z a)). lra. }
      specialize (Q (N - 1)%nat 1%nat). pose proof (pow2_ge_0 (z 1%nat)). lra. }
    assert (P : 0 <= sum_from 1 (N - 1) (fun j => z j ^ 2 + z (j + 1)%nat ^ 2)) by (apply sum_from_nonneg; intros j; pose proof (pow2_ge_0 (z j)); pose proof (pow2_ge_0 (z (j + 1)%nat)); lra).
    rewrite Rabs_right by lra. lra. }
  apply (dead_zero x y); auto.
Qed.
Print Assumptions C119_weak_signal_refuted.
Lemma sum_from_const c : forall n a, sum_from a n (fun _ => c) = INR n * c.
Proof. induction n as [|n IH]; intros a; cbn [sum_from]; [cbn [INR]; ring|]. rewrite IH, S_INR. ring. Qed.
(** and for exactly predictable motion of any size: a constant velocity (u, v), or one that changes sign at every step, has mean
    square u^2 + v^2 and a spectrum that is 0 at every frequency *)
Theorem C119_predictable_motion_refuted : forall (u v s : R) dr di N M dt, (2 <= N)%nat -> (1 <= M)%nat -> s = 1 \/ s = -1 ->
  holds dr N (fun j => u * s ^ j) -> holds di N (fun j => v * s ^ j) ->
  sum_from 1 N (fun j => (u * s ^ j) ^ 2 + (v * s ^ j) ^ 2) / INR N = u ^ 2 + v ^ 2 /\
  forall f, mem_frequency dr di N M dt f = Some 0.
Proof.
  intros u v s dr di N M dt HN HM Hs Hx Hy. assert (s2 : s ^ 2 = 1) by (destruct Hs as [-> | ->]; ring).
  assert (sj : forall j, (s ^ j) ^ 2 = 1). { intros j. rewrite <- pow_mult, Nat.mul_comm, pow_mult, s2. apply pow1. }
  assert (N0 : 0 < INR N) by (apply lt_0_INR; lia). split.
  - rewrite (sum_from_ext _ (fun _ => u ^ 2 + v ^ 2)) by (intros j _; rewrite !Rpow_mult_distr, sj; ring). rewrite sum_from_const. field. lra.
  - assert (K : forall w, b_msd (burg (fun j => w * s ^ j) N 1) = 0).
    { intros w. set (z := fun j => w * s ^ j).
      assert (Nm : burg_num N 1 (burg_init z N) = INR (N - 1) * (w ^ 2 * s)).
      { unfold burg_num; cbn [b_fwd b_bwd burg_init]. rewrite (sum_from_ext _ (fun _ => w ^ 2 * s)); [apply sum_from_const|].
        intros j _. unfold z. rewrite pow_add, pow_1. transitivity (w ^ 2 * s * (s ^ j) ^ 2); [ring|rewrite sj; ring]. }
      assert (Dn : burg_den N 1 (burg_init z N) = INR (N - 1) * (2 * w ^ 2)).
      { unfold burg_den; cbn [b_fwd b_bwd burg_init]. rewrite (sum_from_ext _ (fun _ => 2 * w ^ 2)); [apply sum_from_const|]. intros j _. unfold z. rewrite !Rpow_mult_distr, !sj. ring. }
      change (burg z N 1) with (burg_step N 1 (burg_init z N)). unfold burg_step. change (b_dead (burg_init z N)) with false. cbv iota.
      destruct (Rlt_dec _ _) as [D|D]; [reflexivity|]. cbv zeta. cbn [b_msd]. unfold reflection. rewrite Nm, Dn. rewrite Dn in D.
      assert (W : INR (N - 1) <> 0) by (apply not_0_INR; lia). assert (w0 : w <> 0) by (intros ->; apply D; replace (INR (N - 1) * (2 * 0 ^ 2)) with 0 by ring; rewrite Rabs_R0; lra).
      replace (2 * (INR (N - 1) * (w ^ 2 * s)) / (INR (N - 1) * (2 * w ^ 2))) with s by (field; split; assumption). rewrite s2. ring. }
    intros f. apply (dead_zero (fun j => u * s ^ j) (fun j => v * s ^ j)); try assumption; apply msd_zero_from; auto.
Qed.
Print Assumptions C119_predictable_motion_refuted.
(** a case of the first theorem: samples 1, 0 in the real part, none in the imaginary part; mean square 1/2 *)
Example C119_nonvacuous : let x := fun j => nth j (7 :: 1 :: 0 :: nil)%list 0 in let y := fun _ : nat => 0 in
  let dr := of_list (7 :: 1 :: 0 :: nil)%list in let di := of_list (7 :: 0 :: 0 :: nil)%list in
  holds dr 2 x /\ holds di 2 y /\ predicted_with_error dr x 2 1 /\ predicted_with_error di y 2 1 /\ sum_from 1 2 (fun j => x j ^ 2 + y j ^ 2) / INR 2 = 1 / 2.
Proof.
  intros x y dr di. assert (R1 : holds dr 2 x /\ holds di 2 y).
  { split; intros j Hj; destruct j as [|[|[|j]]]; try lia; reflexivity. }
  destruct R1 as [R1 R2]. split; [exact R1|]. split; [exact R2|]. split; [|split].
  - right. destruct C20_nonvacuous as [c [E _]]. exists (1 / 2), c. split; [exact E|lra].
  - left. reflexivity.
  - cbn [sum_from]. unfold x, y. cbn [nth INR]. field.
Qed.
