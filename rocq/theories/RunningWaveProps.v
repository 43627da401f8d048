(** C123: running and standing lattice waves in the power spectrum of a phonon.  The motion of the atoms is a superposition of harmonic waves; its velocities are
    projected onto a wave vector and a mode (projection.py:7-78, C122) and the FFT power spectrum of that series is computed (power_spectrum.py, C70/C71). *)
From Verif Require Import Base SupercellModel PhonopyLinkModel ProjectionModel ProjectionSpec ProjectionProofs ProjectionSymmetryProps RoundTripProps ModeExpansionProps.
From Verif Require Rounding SpectraModel SpectraProofs FftProps FftModel FftSpec FftProofs RealToneProps RunningWaveProofs HarmonicSpec.
From Coq Require Import Lra Lia Permutation.
From Coquelicot Require Import Hierarchy Derive AutoDerive Complex.
From Coq Require Import List. Import ListNotations.
Open Scope R_scope.

(** ---------- specification ---------- *)
(** displacement (component c, atom i) at time tau of the harmonic waves Re (b e(q,k) e^{i (q.R_i - 2 pi f tau)}) / sqrt m_i, amplitude b q k and frequency fr q k;
    the wave b q k travels in the direction of Q q *)
Definition displacement (inv : mat -> mat) (cell : mat) (pos : list vec) (nx ny nz : nat) (types : list nat) (m : nat -> R) (nq nf : nat) (Q : nat -> vec)
    (fr : nat -> nat -> R) (ev : nat -> nat -> nat -> nat -> C) (b : nat -> nat -> C) (tau : R) (i c : nat) : R :=
  HarmonicSpec.Sum nf (fun k => HarmonicSpec.Sum nq (fun q =>
    fst (Cmult (Cmult (b q k) (ev q k (nth i types 0%nat) c)) (turn (vdot (get_q_vector inv cell (Q q)) (site cell pos nx ny nz i) - 2 * PI * fr q k * tau))) / sqrt (m i))).
(** v holds the velocities of that motion at the N instants 0, dt, 2dt, ... *)
Definition velocities_of (inv : mat -> mat) (cell : mat) (pos : list vec) (nx ny nz : nat) (types : list nat) (m : nat -> R) (nq nf : nat) (Q : nat -> vec)
    (fr : nat -> nat -> R) (ev : nat -> nat -> nat -> nat -> C) (b : nat -> nat -> C) (dt : R) (N : nat) (v : nat -> nat -> nat -> C) : Prop :=
  forall t i c, (t < N)%nat -> (i < length pos * (nx * ny * nz))%nat -> (c < 3)%nat ->
  v t i c = RtoC (Derive (fun tau => displacement inv cell pos nx ny nz types m nq nf Q fr ev b tau i c) (INR t * dt)).
(** the N samples of mode l in the projection vc *)
Definition mode_series (pos : list vec) (nf : nat) (vc : nat -> nat -> nat -> C) (e : nat -> nat -> nat -> C) (l N : nat) : list C :=
  map (fun t => project_onto_phonon (length pos) 3 nf vc e t l) (seq 0 N).

(** ---------- proofs ---------- *)
Lemma Sum_derive n (F : nat -> R -> R) (D : nat -> R) (x : R) : (forall k, (k < n)%nat -> is_derive (F k) x (D k)) ->
  is_derive (fun y : R => HarmonicSpec.Sum n (fun k => F k y)) x (HarmonicSpec.Sum n D).
Proof.
  induction n as [|n IH]; intros H.
  - cbn [HarmonicSpec.Sum]. exact (is_derive_const (K := R_AbsRing) (V := R_NormedModule) 0 x).
  - cbn [HarmonicSpec.Sum]. exact (is_derive_plus (K := R_AbsRing) (V := R_NormedModule) _ _ x _ _ (IH (fun k Hk => H k (Nat.lt_lt_succ_r _ _ Hk))) (H n (Nat.lt_succ_diag_r n))).
Qed.
Lemma wave_derive (z : C) (a w mm tau : R) : mm <> 0 ->
  is_derive (fun x : R => fst (Cmult z (turn (a - w * x))) / mm) tau (fst (Cmult (Cmult (Cmult (Cmult (Copp Ci) (RtoC w)) (turn (- (w * tau)))) z) (turn a)) / mm).
Proof.
  intros Hm. destruct z as [x y]. unfold turn, Ci. cbn [fst snd Cmult Copp RtoC].
  auto_derive; [exact I|]. replace (a + - (w * tau)) with (a - w * tau) by ring. rewrite cos_minus, sin_minus, cos_neg, sin_neg. field. exact Hm.
Qed.
Lemma velocity_superposition inv cell pos nx ny nz types m nq nf Q fr ev b tau i c : 0 < m i ->
  Derive (fun x => displacement inv cell pos nx ny nz types m nq nf Q fr ev b x i c) tau =
  superposition inv cell pos nx ny nz types m nq nf Q ev (fun q k => Cmult (Cmult (Cmult (Copp Ci) (RtoC (2 * PI * fr q k))) (turn (- (2 * PI * fr q k * tau)))) (b q k)) i c.
Proof.
  intros Hm. assert (Hs : sqrt (m i) <> 0) by (apply Rgt_not_eq, sqrt_lt_R0; exact Hm). apply is_derive_unique. unfold displacement, superposition.
  apply (Sum_derive nf (fun k x => HarmonicSpec.Sum nq (fun q => fst (Cmult (Cmult (b q k) (ev q k (nth i types 0%nat) c)) (turn (vdot (get_q_vector inv cell (Q q)) (site cell pos nx ny nz i) - 2 * PI * fr q k * x))) / sqrt (m i)))). intros k _.
  apply (Sum_derive nq (fun q x => fst (Cmult (Cmult (b q k) (ev q k (nth i types 0%nat) c)) (turn (vdot (get_q_vector inv cell (Q q)) (site cell pos nx ny nz i) - 2 * PI * fr q k * x))) / sqrt (m i))).
  intros q _. unfold wave_velocity.
  rewrite <- (Cmult_assoc (Cmult (Cmult (Copp Ci) (RtoC (2 * PI * fr q k))) (turn (- (2 * PI * fr q k * tau)))) (b q k)). exact (wave_derive _ _ (2 * PI * fr q k) _ tau Hs).
Qed.
(** the series of a mode: the wave along q turns one way, the wave along -q the other *)
Theorem C123_mode_series : forall inv cell pos nx ny nz types m nq nf Q fr ev b j j' l dt N v vc t,
  crystal inv cell pos nx ny nz types m -> wave_vectors nx ny nz nq Q -> (j < nq)%nat -> (j' < nq)%nat -> (l < nf)%nat ->
  conjugate_pair inv cell pos nf Q ev j j' -> orthonormal (length pos) 3 nf (ev j) -> fr j' l = fr j l ->
  velocities_of inv cell pos nx ny nz types m nq nf Q fr ev b dt N v -> at_wave_vector inv cell pos nx ny nz types m v (Q j) = Some vc -> (t < N)%nat ->
  project_onto_phonon (length pos) 3 nf vc (ev j) t l =
    Cmult (Cmult (RtoC (sqrt (INR (nx * ny * nz)) / 2 * (2 * PI * fr j l))) Ci)
          (Cminus (Cmult (Cconj (b j' l)) (turn (2 * PI * fr j l * (INR t * dt)))) (Cmult (b j l) (turn (- (2 * PI * fr j l * (INR t * dt)))))).
Proof.
  intros inv cell pos nx ny nz types m nq nf Q fr ev b j j' l dt N v vc t Hc HW Hj Hj' Hl He Ho Hf Hv EA Ht.
  rewrite (C122_mode_amplitude inv cell pos nx ny nz types m nq nf Q ev (fun q k => Cmult (Cmult (Cmult (Copp Ci) (RtoC (2 * PI * fr q k))) (turn (- (2 * PI * fr q k * (INR t * dt))))) (b q k)) j j' l v vc t Hc HW Hj Hj' Hl He Ho).
  - rewrite Hf. generalize (2 * PI * fr j l * (INR t * dt)), (2 * PI * fr j l), (sqrt (INR (nx * ny * nz))). intros th w r.
    destruct (b j l) as [x y], (b j' l) as [x' y']. unfold turn, Ci. rewrite cos_neg, sin_neg. apply injective_projections; cbn; field.
  - intros i c Hi Hc3. rewrite (Hv t i c Ht Hi Hc3). f_equal. apply velocity_superposition. apply (proj2 (proj2 (proj2 (proj2 (proj2 Hc))))).
  - exact EA.
Qed.
Print Assumptions C123_mode_series.

Lemma turn_cis x : turn x = FftModel.cis x. Proof. reflexivity. Qed.
Lemma opposite_pair inv cell pos nf Q ev j j' : conjugate_pair inv cell pos nf Q ev j j' -> conjugate_pair inv cell pos nf Q ev j' j.
Proof.
  intros [I E]. assert (S1 : vadd (Q j') (Q j) = vadd (Q j) (Q j')) by (apply vec_eq; cbn; ring). split; rewrite S1; [exact I|].
  intros k ty c Hk Hty Hc. rewrite (E k ty c Hk Hty Hc), Cmult_conj', Cconj_conj'. unfold cell_phase. set (ph := expmi _).
  assert (U : Cmult (Cconj ph) ph = RtoC 1). { unfold ph. rewrite expmi_conj, <- expmi_add, Rplus_opp_l. apply expmi_0. }
  transitivity (Cmult (ev j k ty c) (Cmult (Cconj ph) ph)); [rewrite U; ring|ring].
Qed.
Lemma opposite_orthonormal inv cell pos nf Q ev j j' : conjugate_pair inv cell pos nf Q ev j j' -> orthonormal (length pos) 3 nf (ev j) -> orthonormal (length pos) 3 nf (ev j').
Proof.
  intros [I E] Ho a b Ha Hb. assert (X := Ho b a Hb Ha). rewrite Nat.eqb_sym in X. rewrite <- X. apply csum_ext. intros ty Hty. apply csum_ext. intros c Hc.
  rewrite (E a ty c Ha Hty Hc), (E b ty c Hb Hty Hc), Cmult_conj', Cconj_conj'. unfold cell_phase. set (ph := expmi _).
  assert (U : Cmult (Cconj ph) ph = RtoC 1). { unfold ph. rewrite expmi_conj, <- expmi_add, Rplus_opp_l. apply expmi_0. }
  transitivity (Cmult (Cmult (ev j b ty c) (Cconj (ev j a ty c))) (Cmult (Cconj ph) ph)); [ring|rewrite U; ring].
Qed.
Lemma resolved_opp n s : FftSpec.resolved n s -> (2 * Z.abs s <> Z.of_nat n)%Z -> FftSpec.resolved n (- s).
Proof.
  unfold FftSpec.resolved. intros H Hn. assert (D1 := Z.div_mod (Z.of_nat n) 2 ltac:(lia)). assert (M1 := Z.mod_pos_bound (Z.of_nat n) 2 ltac:(lia)).
  assert (D2 := Z.div_mod (Z.of_nat n - 1) 2 ltac:(lia)). assert (M2 := Z.mod_pos_bound (Z.of_nat n - 1) 2 ltac:(lia)). lia.
Qed.
(** the power of a tone at a frequency an even number of steps away, in pieces of an even number of samples *)
Lemma tone_silent argsort f0 f1 freqs A N dt s l e : 0 < dt -> (1 <= N)%nat -> (1 <= Rounding.around (1 / (dt * (f1 - f0))))%Z ->
  let n := RealToneProps.piece_samples N f0 f1 dt in
  FftSpec.sorts argsort (FftModel.fftfreq n dt) -> FftSpec.resolved n s -> FftSpec.resolved n l -> Nat.Even n -> (s - l = 2 * e)%Z -> (0 < 2 * Z.abs e < Z.of_nat n)%Z ->
  forall out, FftModel.numpy_power argsort (f0 :: f1 :: freqs) (FftSpec.tone A (FftSpec.grid_frequency n dt s) dt N) dt = Some out ->
  forall k, nth_error (f0 :: f1 :: freqs) k = Some (FftSpec.grid_frequency n dt l) -> nth_error out k = Some 0.
Proof.
  intros Hdt HN Hp n Hs Rs Rl [h Hh] Hd He out Eo k Hk. set (data := FftSpec.tone A (FftSpec.grid_frequency n dt s) dt N) in *.
  assert (Ld : length data = N) by (unfold data, FftSpec.tone; rewrite map_length, seq_length; reflexivity).
  destruct (FftProofs.numpy_power_structure argsort f0 f1 freqs data dt Hdt ltac:(lia) Hp ltac:(rewrite Ld; exact Hs)) as [Hn [pieces [_ [Hne [HL [out' [E [L V]]]]]]]].
  rewrite Eo in E. injection E as <-. rewrite Ld in *. unfold RealToneProps.piece_samples in n. fold n in Hn, HL, V.
  destruct (V k _ Hk) as [y [E1 E2]]. rewrite E1. f_equal.
  rewrite (FftProofs.value_at_grid argsort n dt) in E2 by assumption. injection E2 as <-.
  destruct (FftProofs.position_spec n l Hn Rl) as [P1 _]. rewrite FftProofs.nth_map_seq by exact P1.
  apply FftProofs.avg_eq; [exact Hne|]. intros p Hpp. destruct (HL p Hpp) as [Q1 [_ Q3]].
  destruct (FftProofs.tone_slice A n s dt N p Hn Hdt Q1 Q3) as [A' [EA HA]]. fold data in HA.
  rewrite FftProofs.piece_power_position by assumption. rewrite Hh in HA.
  rewrite (RunningWaveProofs.tone_dft_even A' h s _ l e); [rewrite Cmod_0; ring|lia|exact HA|exact Hd|lia].
Qed.
(** ... and in pieces of an odd number of samples *)
Lemma tone_faint argsort f0 f1 freqs A N dt s l e : 0 < dt -> (1 <= N)%nat -> (1 <= Rounding.around (1 / (dt * (f1 - f0))))%Z ->
  let n := RealToneProps.piece_samples N f0 f1 dt in
  FftSpec.sorts argsort (FftModel.fftfreq n dt) -> FftSpec.resolved n s -> FftSpec.resolved n l -> Nat.Odd n -> (s - l = 2 * e)%Z -> (0 < 2 * Z.abs e < Z.of_nat n)%Z ->
  forall out, FftModel.numpy_power argsort (f0 :: f1 :: freqs) (FftSpec.tone A (FftSpec.grid_frequency n dt s) dt N) dt = Some out ->
  forall k, nth_error (f0 :: f1 :: freqs) k = Some (FftSpec.grid_frequency n dt l) -> nth_error out k = Some ((Cmod A) ^ 2 * (1 / (4 * INR n * cos (PI * IZR e / INR n) ^ 2)) * dt).
Proof.
  intros Hdt HN Hp n Hs Rs Rl [h Hh] Hd He out Eo k Hk. set (data := FftSpec.tone A (FftSpec.grid_frequency n dt s) dt N) in *.
  assert (Ld : length data = N) by (unfold data, FftSpec.tone; rewrite map_length, seq_length; reflexivity).
  destruct (FftProofs.numpy_power_structure argsort f0 f1 freqs data dt Hdt ltac:(lia) Hp ltac:(rewrite Ld; exact Hs)) as [Hn [pieces [_ [Hne [HL [out' [E [L V]]]]]]]].
  rewrite Eo in E. injection E as <-. rewrite Ld in *. unfold RealToneProps.piece_samples in n. fold n in Hn, HL, V.
  destruct (V k _ Hk) as [y [E1 E2]]. rewrite E1. f_equal.
  rewrite (FftProofs.value_at_grid argsort n dt) in E2 by assumption. injection E2 as <-.
  destruct (FftProofs.position_spec n l Hn Rl) as [P1 _]. rewrite FftProofs.nth_map_seq by exact P1.
  apply FftProofs.avg_eq; [exact Hne|]. intros p Hpp. destruct (HL p Hpp) as [Q1 [_ Q3]].
  destruct (FftProofs.tone_slice A n s dt N p Hn Hdt Q1 Q3) as [A' [EA HA]]. fold data in HA.
  rewrite FftProofs.piece_power_position by assumption. rewrite Hh in HA.
  rewrite (RunningWaveProofs.tone_dft_odd A' h s _ l e); [rewrite <- Hh, EA; ring|exact HA|exact Hd|lia].
Qed.
Lemma running_tone inv cell pos nx ny nz types m nq nf Q fr ev b j j' l dt N v vc :
  crystal inv cell pos nx ny nz types m -> wave_vectors nx ny nz nq Q -> (j < nq)%nat -> (j' < nq)%nat -> (l < nf)%nat ->
  conjugate_pair inv cell pos nf Q ev j j' -> orthonormal (length pos) 3 nf (ev j) -> fr j' l = fr j l ->
  velocities_of inv cell pos nx ny nz types m nq nf Q fr ev b dt N v -> at_wave_vector inv cell pos nx ny nz types m v (Q j) = Some vc ->
  let a := Cmult (RtoC (sqrt (INR (nx * ny * nz)) / 2 * (2 * PI * fr j l))) Ci in
  (b j' l = RtoC 0 -> mode_series pos nf vc (ev j) l N = FftSpec.tone (Cmult a (Copp (b j l))) (- fr j l) dt N) /\
  (b j l = RtoC 0 -> mode_series pos nf vc (ev j) l N = FftSpec.tone (Cmult a (Cconj (b j' l))) (fr j l) dt N).
Proof.
  intros Hc HW Hj Hj' Hl He Ho Hf Hv EA a. split; intros Z; unfold mode_series, FftSpec.tone; apply map_ext_in; intros t Ht; apply in_seq in Ht;
    rewrite (C123_mode_series inv cell pos nx ny nz types m nq nf Q fr ev b j j' l dt N v vc t Hc HW Hj Hj' Hl He Ho Hf Hv EA) by lia; fold a; rewrite Z.
  - replace (2 * PI * - fr j l * (INR t * dt)) with (- (2 * PI * fr j l * (INR t * dt))) by ring.
    change (cos ?x, sin ?x) with (turn x). generalize (turn (2 * PI * fr j l * (INR t * dt))), (turn (- (2 * PI * fr j l * (INR t * dt)))), a, (b j l). intros [x y] [x' y'] [u w] [p q]. apply injective_projections; cbn; ring.
  - change (cos ?x, sin ?x) with (turn x). generalize (turn (2 * PI * fr j l * (INR t * dt))), (turn (- (2 * PI * fr j l * (INR t * dt)))), a, (b j' l). intros [x y] [x' y'] [u w] [p q]. apply injective_projections; cbn; ring.
Qed.
Lemma amplitude2 (N : nat) w z : Cmod (Cmult (Cmult (RtoC (sqrt (INR N) / 2 * w)) Ci) z) ^ 2 = INR N / 4 * w ^ 2 * Cmod z ^ 2.
Proof.
  rewrite !Cmod_mult, Cmod_R. replace (Cmod Ci) with 1 by (unfold Cmod, Ci; cbn; replace (0 * (0 * 1) + 1 * (1 * 1)) with 1 by ring; symmetry; apply sqrt_1).
  rewrite Rmult_1_r, Rpow_mult_distr, pow2_abs.
  replace ((sqrt (INR N) / 2 * w) ^ 2) with (sqrt (INR N) ^ 2 / 4 * w ^ 2) by field. rewrite pow2_sqrt by apply pos_INR. reflexivity.
Qed.
(** the power at the top of the spectrum of a wave of amplitude b and frequency f in ncells cells *)
Definition wave_power (ncells : nat) (f : R) (b : C) (n : nat) (dt : R) : R := INR ncells / 4 * (2 * PI * f) ^ 2 * Cmod b ^ 2 * FftSpec.lag_weight n * dt.
(** seen from the opposite wave vector, a wave running along q has its only full peak at its own frequency *)
Theorem C123_running_wave_at_opposite_q : forall inv cell pos nx ny nz types m nq nf Q fr ev b j j' l dt N v vc argsort f0 f1 freqs s,
  crystal inv cell pos nx ny nz types m -> wave_vectors nx ny nz nq Q -> (j < nq)%nat -> (j' < nq)%nat -> (l < nf)%nat ->
  conjugate_pair inv cell pos nf Q ev j j' -> orthonormal (length pos) 3 nf (ev j) -> fr j' l = fr j l -> b j' l = RtoC 0 ->
  velocities_of inv cell pos nx ny nz types m nq nf Q fr ev b dt N v -> at_wave_vector inv cell pos nx ny nz types m v (Q j') = Some vc ->
  0 < dt -> (1 <= N)%nat -> (1 <= Rounding.around (1 / (dt * (f1 - f0))))%Z ->
  let n := RealToneProps.piece_samples N f0 f1 dt in
  FftSpec.sorts argsort (FftModel.fftfreq n dt) -> FftSpec.resolved n s -> fr j l = FftSpec.grid_frequency n dt s ->
  exists out, FftModel.numpy_power argsort (f0 :: f1 :: freqs) (mode_series pos nf vc (ev j') l N) dt = Some out /\
  (forall y, In y out -> y <= wave_power (nx * ny * nz) (fr j l) (b j l) n dt) /\
  (forall k, nth_error (f0 :: f1 :: freqs) k = Some (fr j l) -> nth_error out k = Some (wave_power (nx * ny * nz) (fr j l) (b j l) n dt)).
Proof.
  intros inv cell pos nx ny nz types m nq nf Q fr ev b j j' l dt N v vc argsort f0 f1 freqs s Hc HW Hj Hj' Hl He Ho Hf Hb Hv EA Hdt HN Hp n Hs Rs Ef.
  destruct (running_tone inv cell pos nx ny nz types m nq nf Q fr ev b j' j l dt N v vc Hc HW Hj' Hj Hl (opposite_pair _ _ _ _ _ _ _ _ He) (opposite_orthonormal _ _ _ _ _ _ _ _ He Ho) (eq_sym Hf) Hv EA) as [_ T].
  specialize (T Hb). rewrite Hf in T. set (A := Cmult (Cmult _ _) _) in T. rewrite Ef in T. rewrite T.
  destruct (FftProps.C71_tone_peaks_at_its_frequency argsort f0 f1 freqs A N dt s Hdt HN Hp Hs Rs) as [out [E [B P]]].
  assert (W : (Cmod A) ^ 2 * FftSpec.lag_weight n * dt = wave_power (nx * ny * nz) (fr j l) (b j l) n dt).
  { unfold A, wave_power. rewrite amplitude2. rewrite FftProofs.Cmod_conj. ring. }
  exists out. split; [exact E|]. split; [intros y Hy; rewrite <- W; exact (B y Hy)|]. intros k Hk. rewrite <- W. apply P. rewrite Ef in Hk. exact Hk.
Qed.
Print Assumptions C123_running_wave_at_opposite_q.
(** at its own wave vector it peaks at minus its frequency ... *)
Theorem C123_running_wave_at_own_q : forall inv cell pos nx ny nz types m nq nf Q fr ev b j j' l dt N v vc argsort f0 f1 freqs s,
  crystal inv cell pos nx ny nz types m -> wave_vectors nx ny nz nq Q -> (j < nq)%nat -> (j' < nq)%nat -> (l < nf)%nat ->
  conjugate_pair inv cell pos nf Q ev j j' -> orthonormal (length pos) 3 nf (ev j) -> fr j' l = fr j l -> b j' l = RtoC 0 ->
  velocities_of inv cell pos nx ny nz types m nq nf Q fr ev b dt N v -> at_wave_vector inv cell pos nx ny nz types m v (Q j) = Some vc ->
  0 < dt -> (1 <= N)%nat -> (1 <= Rounding.around (1 / (dt * (f1 - f0))))%Z ->
  let n := RealToneProps.piece_samples N f0 f1 dt in
  FftSpec.sorts argsort (FftModel.fftfreq n dt) -> FftSpec.resolved n s -> (2 * Z.abs s <> Z.of_nat n)%Z -> fr j l = FftSpec.grid_frequency n dt s ->
  exists out, FftModel.numpy_power argsort (f0 :: f1 :: freqs) (mode_series pos nf vc (ev j) l N) dt = Some out /\
  (forall y, In y out -> y <= wave_power (nx * ny * nz) (fr j l) (b j l) n dt) /\
  (forall k, nth_error (f0 :: f1 :: freqs) k = Some (- fr j l) -> nth_error out k = Some (wave_power (nx * ny * nz) (fr j l) (b j l) n dt)).
Proof.
  intros inv cell pos nx ny nz types m nq nf Q fr ev b j j' l dt N v vc argsort f0 f1 freqs s Hc HW Hj Hj' Hl He Ho Hf Hb Hv EA Hdt HN Hp n Hs Rs H2 Ef.
  destruct (running_tone inv cell pos nx ny nz types m nq nf Q fr ev b j j' l dt N v vc Hc HW Hj Hj' Hl He Ho Hf Hv EA) as [T _].
  assert (En : - fr j l = FftSpec.grid_frequency n dt (- s)) by (rewrite Ef; unfold FftSpec.grid_frequency; rewrite opp_IZR; unfold Rdiv; ring).
  specialize (T Hb). set (A := Cmult (Cmult _ _) _) in T. rewrite En in T. rewrite T.
  destruct (FftProps.C71_tone_peaks_at_its_frequency argsort f0 f1 freqs A N dt (- s) Hdt HN Hp Hs (resolved_opp n s Rs H2)) as [out [E [B P]]].
  assert (W : (Cmod A) ^ 2 * FftSpec.lag_weight n * dt = wave_power (nx * ny * nz) (fr j l) (b j l) n dt).
  { unfold A, wave_power. rewrite amplitude2, Cmod_opp. reflexivity. }
  exists out. split; [exact E|]. split; [intros y Hy; rewrite <- W; exact (B y Hy)|]. intros k Hk. rewrite <- W. apply P. rewrite En in Hk. exact Hk.
Qed.
Print Assumptions C123_running_wave_at_own_q.
(** ... and for pieces of an even number of samples its power at its own frequency is exactly zero: "the phonon spectrum at q shows the mode's motion at the
    mode's frequency" is false for every wave running along q *)
Theorem C123_own_frequency_refuted : forall inv cell pos nx ny nz types m nq nf Q fr ev b j j' l dt N v vc argsort f0 f1 freqs s,
  crystal inv cell pos nx ny nz types m -> wave_vectors nx ny nz nq Q -> (j < nq)%nat -> (j' < nq)%nat -> (l < nf)%nat ->
  conjugate_pair inv cell pos nf Q ev j j' -> orthonormal (length pos) 3 nf (ev j) -> fr j' l = fr j l -> b j' l = RtoC 0 ->
  velocities_of inv cell pos nx ny nz types m nq nf Q fr ev b dt N v -> at_wave_vector inv cell pos nx ny nz types m v (Q j) = Some vc ->
  0 < dt -> (1 <= N)%nat -> (1 <= Rounding.around (1 / (dt * (f1 - f0))))%Z ->
  let n := RealToneProps.piece_samples N f0 f1 dt in
  FftSpec.sorts argsort (FftModel.fftfreq n dt) -> FftSpec.resolved n s -> s <> 0%Z -> (2 * Z.abs s <> Z.of_nat n)%Z -> Nat.Even n -> fr j l = FftSpec.grid_frequency n dt s ->
  exists out, FftModel.numpy_power argsort (f0 :: f1 :: freqs) (mode_series pos nf vc (ev j) l N) dt = Some out /\
  forall k, nth_error (f0 :: f1 :: freqs) k = Some (fr j l) -> nth_error out k = Some 0.
Proof.
  intros inv cell pos nx ny nz types m nq nf Q fr ev b j j' l dt N v vc argsort f0 f1 freqs s Hc HW Hj Hj' Hl He Ho Hf Hb Hv EA Hdt HN Hp n Hs Rs H0 H2 Hev Ef.
  destruct (C123_running_wave_at_own_q inv cell pos nx ny nz types m nq nf Q fr ev b j j' l dt N v vc argsort f0 f1 freqs s Hc HW Hj Hj' Hl He Ho Hf Hb Hv EA Hdt HN Hp Hs Rs H2 Ef) as [out [E _]].
  exists out. split; [exact E|]. intros k Hk.
  destruct (running_tone inv cell pos nx ny nz types m nq nf Q fr ev b j j' l dt N v vc Hc HW Hj Hj' Hl He Ho Hf Hv EA) as [T _].
  assert (En : - fr j l = FftSpec.grid_frequency n dt (- s)) by (rewrite Ef; unfold FftSpec.grid_frequency; rewrite opp_IZR; unfold Rdiv; ring).
  rewrite (T Hb) in E. rewrite En in E. rewrite Ef in Hk.
  assert (Rn := resolved_opp n s Rs H2).
  refine (tone_silent argsort f0 f1 freqs (Cmult (Cmult (RtoC (sqrt (INR (nx * ny * nz)) / 2 * (2 * PI * fr j l))) Ci) (Copp (b j l))) N dt (- s) s (- s) Hdt HN Hp Hs Rn Rs Hev ltac:(lia) _ out E k Hk).
  fold n. unfold FftSpec.resolved in Rs, Rn. assert (D1 := Z.div_mod (Z.of_nat n) 2 ltac:(lia)). assert (M1 := Z.mod_pos_bound (Z.of_nat n) 2 ltac:(lia)). lia.
Qed.
Print Assumptions C123_own_frequency_refuted.
(** ... and for pieces of an odd number of samples it is at most a third of the peak *)
Theorem C123_own_frequency_odd_refuted : forall inv cell pos nx ny nz types m nq nf Q fr ev b j j' l dt N v vc argsort f0 f1 freqs s,
  crystal inv cell pos nx ny nz types m -> wave_vectors nx ny nz nq Q -> (j < nq)%nat -> (j' < nq)%nat -> (l < nf)%nat ->
  conjugate_pair inv cell pos nf Q ev j j' -> orthonormal (length pos) 3 nf (ev j) -> fr j' l = fr j l -> b j' l = RtoC 0 ->
  velocities_of inv cell pos nx ny nz types m nq nf Q fr ev b dt N v -> at_wave_vector inv cell pos nx ny nz types m v (Q j) = Some vc ->
  0 < dt -> (1 <= N)%nat -> (1 <= Rounding.around (1 / (dt * (f1 - f0))))%Z ->
  let n := RealToneProps.piece_samples N f0 f1 dt in
  FftSpec.sorts argsort (FftModel.fftfreq n dt) -> FftSpec.resolved n s -> s <> 0%Z -> Nat.Odd n -> fr j l = FftSpec.grid_frequency n dt s ->
  exists out, FftModel.numpy_power argsort (f0 :: f1 :: freqs) (mode_series pos nf vc (ev j) l N) dt = Some out /\
  let faint := INR (nx * ny * nz) / 4 * (2 * PI * fr j l) ^ 2 * Cmod (b j l) ^ 2 * (1 / (4 * INR n * cos (PI * IZR s / INR n) ^ 2)) * dt in
  faint <= wave_power (nx * ny * nz) (fr j l) (b j l) n dt / 3 /\
  forall k, nth_error (f0 :: f1 :: freqs) k = Some (fr j l) -> nth_error out k = Some faint.
Proof.
  intros inv cell pos nx ny nz types m nq nf Q fr ev b j j' l dt N v vc argsort f0 f1 freqs s Hc HW Hj Hj' Hl He Ho Hf Hb Hv EA Hdt HN Hp n Hs Rs H0 Hod Ef. assert (H2 : (2 * Z.abs s <> Z.of_nat n)%Z) by (destruct Hod as [h Hh]; lia).
  destruct (C123_running_wave_at_own_q inv cell pos nx ny nz types m nq nf Q fr ev b j j' l dt N v vc argsort f0 f1 freqs s Hc HW Hj Hj' Hl He Ho Hf Hb Hv EA Hdt HN Hp Hs Rs H2 Ef) as [out [E _]].
  assert (Hsm : (2 * Z.abs s < Z.of_nat n)%Z).
  { unfold FftSpec.resolved in Rs. assert (D1 := Z.div_mod (Z.of_nat n) 2 ltac:(lia)). assert (M1 := Z.mod_pos_bound (Z.of_nat n) 2 ltac:(lia)). assert (D2 := Z.div_mod (Z.of_nat n - 1) 2 ltac:(lia)). assert (M2 := Z.mod_pos_bound (Z.of_nat n - 1) 2 ltac:(lia)). lia. }
  exists out. split; [exact E|]. intros faint. split.
  { unfold faint, wave_power. destruct Hod as [h Hh]. destruct (RunningWaveProofs.opposite_share h s H0 ltac:(lia)) as [_ SH]. rewrite <- Hh in SH.
    set (c := INR (nx * ny * nz) / 4 * (2 * PI * fr j l) ^ 2 * Cmod (b j l) ^ 2). replace (c * FftSpec.lag_weight n * dt / 3) with (c * (FftSpec.lag_weight n / 3) * dt) by field.
    apply Rmult_le_compat_r; [lra|]. apply Rmult_le_compat_l; [|exact SH]. unfold c. apply Rmult_le_pos; [apply Rmult_le_pos; [|apply pow2_ge_0]|apply pow2_ge_0]. assert (PN := pos_INR (nx * ny * nz)). lra. }
  intros k Hk.
  destruct (running_tone inv cell pos nx ny nz types m nq nf Q fr ev b j j' l dt N v vc Hc HW Hj Hj' Hl He Ho Hf Hv EA) as [T _].
  assert (En : - fr j l = FftSpec.grid_frequency n dt (- s)) by (rewrite Ef; unfold FftSpec.grid_frequency; rewrite opp_IZR; unfold Rdiv; ring).
  rewrite (T Hb) in E. rewrite En in E. unfold faint. rewrite Ef in Hk.
  assert (Rn := resolved_opp n s Rs H2).
  assert (X := tone_faint argsort f0 f1 freqs (Cmult (Cmult (RtoC (sqrt (INR (nx * ny * nz)) / 2 * (2 * PI * fr j l))) Ci) (Copp (b j l))) N dt (- s) s (- s) Hdt HN Hp Hs Rn Rs Hod ltac:(lia) ltac:(fold n; lia) out E k Hk).
  fold n in X. rewrite X. rewrite amplitude2, Cmod_opp. rewrite opp_IZR. replace (PI * - IZR s / INR n) with (- (PI * IZR s / INR n)) by (unfold Rdiv; ring). rewrite cos_neg. reflexivity.
Qed.
Print Assumptions C123_own_frequency_odd_refuted.

(** a standing wave (the two opposite waves have equal strength, which is always so where q and -q are the same wave vector) peaks at its own frequency *)
Theorem C123_standing_wave_partial : forall inv cell pos nx ny nz types m nq nf Q fr ev b j j' l dt N v vc argsort f0 f1 freqs s,
  crystal inv cell pos nx ny nz types m -> wave_vectors nx ny nz nq Q -> (j < nq)%nat -> (j' < nq)%nat -> (l < nf)%nat ->
  conjugate_pair inv cell pos nf Q ev j j' -> orthonormal (length pos) 3 nf (ev j) -> fr j' l = fr j l -> Cmod (b j l) = Cmod (b j' l) ->
  velocities_of inv cell pos nx ny nz types m nq nf Q fr ev b dt N v -> at_wave_vector inv cell pos nx ny nz types m v (Q j) = Some vc ->
  0 < dt -> (1 <= N)%nat -> (1 <= Rounding.around (1 / (dt * (f1 - f0))))%Z ->
  let n := RealToneProps.piece_samples N f0 f1 dt in
  FftSpec.sorts argsort (FftModel.fftfreq n dt) -> FftSpec.resolved n s -> fr j l = FftSpec.grid_frequency n dt s ->
  exists out, FftModel.numpy_power argsort (f0 :: f1 :: freqs) (mode_series pos nf vc (ev j) l N) dt = Some out /\
  forall k, nth_error (f0 :: f1 :: freqs) k = Some (fr j l) -> exists top, nth_error out k = Some top /\ (forall y, In y out -> y <= top) /\
    (s <> 0%Z -> (2 * Z.abs s <> Z.of_nat n)%Z -> 3 / 20 * INR n * dt * (INR (nx * ny * nz) * (2 * PI * fr j l) ^ 2 * Cmod (b j l) ^ 2) <= top).
Proof.
  intros inv cell pos nx ny nz types m nq nf Q fr ev b j j' l dt N v vc argsort f0 f1 freqs s Hc HW Hj Hj' Hl He Ho Hf Hb Hv EA Hdt HN Hp n Hs Rs Ef.
  destruct (RunningWaveProofs.polar (b j l)) as [al Ea]. destruct (RunningWaveProofs.polar (Cconj (b j' l))) as [be Eb].
  rewrite FftProofs.Cmod_conj, <- Hb in Eb. set (rho := Cmod (b j l)) in *. set (r := sqrt (INR (nx * ny * nz))) in *.
  set (A := r * (2 * PI * fr j l) * rho). set (phi := (be - al) / 2 - PI / 2). set (u := Copp (turn ((al + be) / 2))).
  assert (E : mode_series pos nf vc (ev j) l N = map (Cmult u) (RealToneProps.oscillation A phi (FftSpec.grid_frequency n dt s) dt N)).
  { unfold mode_series, RealToneProps.oscillation. rewrite map_map. apply map_ext_in. intros t Ht. apply in_seq in Ht. rewrite <- Ef.
    rewrite (C123_mode_series inv cell pos nx ny nz types m nq nf Q fr ev b j j' l dt N v vc t Hc HW Hj Hj' Hl He Ho Hf Hv EA) by lia. fold r.
    rewrite Ea, Eb. set (th := 2 * PI * fr j l * (INR t * dt)). unfold phi.
    replace (th + ((be - al) / 2 - PI / 2)) with (- (PI / 2 - (th + (be - al) / 2))) by ring. rewrite cos_neg, cos_shift.
    unfold u, A. set (d := (be - al) / 2). set (c := (al + be) / 2).
    assert (Hbe : be = c + d) by (unfold c, d; field). assert (Hal : al = c - d) by (unfold c, d; field). clearbody c d th. rewrite Hbe, Hal.
    generalize (2 * PI * fr j l). intros w. unfold FftModel.cis, turn, Ci.
    rewrite !cos_minus, !sin_minus, !cos_plus, !sin_plus, !cos_neg, !sin_neg.
    apply injective_projections; cbn; field. }
  assert (Hu : Cmod u = 1) by (unfold u; rewrite Cmod_opp, turn_cis; apply FftProofs.cis_mod).
  destruct (RealToneProps.C116_oscillation_peaks_at_its_frequency argsort f0 f1 freqs A phi N dt s Hdt HN Hp Hs Rs) as [out [E1 F]]. fold n in E1, F.
  assert (M1 : map (Rmult ((Cmod u) ^ 2)) out = out). { rewrite Hu. rewrite <- (map_id out) at 2. apply map_ext. intros; ring. }
  exists out. split.
  - rewrite E, FftProps.C70_quadratic_and_phase_blind, E1. cbn [option_map]. rewrite M1. reflexivity.
  - intros k K. rewrite Ef in K. destruct (F k K) as [top [T1 [T2 T3]]]. exists top. split; [exact T1|]. split; [exact T2|].
    intros S1 S2. replace (INR (nx * ny * nz) * (2 * PI * fr j l) ^ 2 * rho ^ 2) with (A ^ 2); [exact (T3 S1 S2)|].
    unfold A. rewrite <- (pow2_sqrt (INR (nx * ny * nz)) (pos_INR _)). fold r. ring.
Qed.
Print Assumptions C123_standing_wave_partial.
Local Open Scope list_scope.
(** a concrete case: three cells in a row, a wave of 1 THz running along q = 1/3, 24 samples every 1/8 ps, spectrum requested every THz: nothing at 1 THz at q,
    all of it at 1 THz at -q (which is the wave vector 2/3) *)
Example C123_nonvacuous :
  let Q i := V3 (INR i / 3) 0 0 in
  let ev (_ k _ c : nat) := if (k =? c)%nat then RtoC 1 else RtoC 0 in
  let b q k := if ((q =? 1) && (k =? 2))%nat%bool then RtoC 1 else RtoC 0 in
  let v t i c := RtoC (Derive (fun tau => displacement (fun m => m) mid (vzero :: nil) 3 1 1 [0; 0; 0]%nat (fun _ => 1) 3 3 Q (fun _ _ => 1) ev b tau i c) (INR t * (1/8))) in
  exists vc vc', at_wave_vector (fun m => m) mid (vzero :: nil) 3 1 1 [0; 0; 0]%nat (fun _ => 1) v (Q 1%nat) = Some vc /\
  at_wave_vector (fun m => m) mid (vzero :: nil) 3 1 1 [0; 0; 0]%nat (fun _ => 1) v (Q 2%nat) = Some vc' /\
  exists out out', FftModel.numpy_power FftProps.rotation [0; 1; 2; 3] (mode_series (vzero :: nil) 3 vc (ev 1%nat) 2 24) (1/8) = Some out /\
  FftModel.numpy_power FftProps.rotation [0; 1; 2; 3] (mode_series (vzero :: nil) 3 vc' (ev 2%nat) 2 24) (1/8) = Some out' /\
  nth_error out 1 = Some 0 /\ nth_error out' 1 = Some (wave_power 3 1 (RtoC 1) 8 (1/8)).
Proof.
  intros Q ev b v.
  assert (HC : crystal (fun m => m) mid (vzero :: nil) 3 1 1 [0; 0; 0]%nat (fun _ => 1)).
  { repeat split; try lia; try reflexivity; try (intros; lra); unfold mmul, mid, vmul, vadd, vscale; cbn; f_equal; apply vec_eq; cbn; ring. }
  assert (HW : wave_vectors 3 1 1 3 Q).
  { split; [reflexivity|]. split.
    - intros i _. exists (Z.of_nat i), 0%Z, 0%Z. unfold Q. cbn [vx vy vz]. rewrite <- INR_IZR_INZ. cbn [INR]. repeat split; field.
    - intros i k Hi Hk (a & b' & c & X). apply (f_equal vx) in X. unfold Q in X. cbn [vsub vx] in X.
      assert (Y : IZR (Z.of_nat i - Z.of_nat k) = IZR (3 * a)) by (rewrite minus_IZR, mult_IZR, <- !INR_IZR_INZ; lra). apply eq_IZR in Y. lia. }
  assert (HP : conjugate_pair (fun m => m) mid (vzero :: nil) 3 Q ev 1 2).
  { split; [exists 1%Z, 0%Z, 0%Z; unfold Q; apply vec_eq; cbn; lra|].
    intros k ty c Hk Hty Hc. unfold cell_phase. destruct ty; [|cbn in Hty; lia]. cbn [nth]. replace (vdot _ vzero) with 0 by (unfold vdot, vzero; cbn; ring). rewrite expmi_0. unfold ev. destruct (k =? c)%nat; apply injective_projections; cbn; ring. }
  assert (HO : orthonormal (length (vzero :: nil)) 3 3 (ev 1%nat)).
  { intros k k' Hk Hk'. destruct k as [|[|[|k]]], k' as [|[|[|k']]]; try lia; unfold ev; cbn; apply injective_projections; cbn; ring. }
  destruct (projection_defined _ _ _ _ _ _ _ _ v (Q 1%nat) HC) as [vc E]. destruct (projection_defined _ _ _ _ _ _ _ _ v (Q 2%nat) HC) as [vc' E'].
  assert (Ea : Rounding.around (1 / (1 / 8 * (1 - 0))) = 8%Z) by (replace (1 / (1 / 8 * (1 - 0))) with (IZR 8) by field; apply Rounding.around_IZR).
  assert (En : RealToneProps.piece_samples 24 0 1 (1/8) = 8%nat) by (unfold RealToneProps.piece_samples; rewrite Ea; reflexivity).
  assert (Ef : 1 = FftSpec.grid_frequency 8 (1/8) 1) by (unfold FftSpec.grid_frequency; cbn [INR]; field).
  assert (HV : velocities_of (fun m => m) mid (vzero :: nil) 3 1 1 [0; 0; 0]%nat (fun _ => 1) 3 3 Q (fun _ _ => 1) ev b (1/8) 24 v) by (intros t i c _ _ _; reflexivity).
  exists vc, vc'. split; [exact E|]. split; [exact E'|].
  assert (G := C123_own_frequency_refuted (fun m => m) mid (vzero :: nil) 3 1 1 [0; 0; 0]%nat (fun _ => 1) 3 3 Q (fun _ _ => 1) ev b 1 2 2 (1/8) 24 v vc FftProps.rotation 0 1 [2; 3] 1 HC HW).
  assert (G' := C123_running_wave_at_opposite_q (fun m => m) mid (vzero :: nil) 3 1 1 [0; 0; 0]%nat (fun _ => 1) 3 3 Q (fun _ _ => 1) ev b 1 2 2 (1/8) 24 v vc' FftProps.rotation 0 1 [2; 3] 1 HC HW).
  cbv zeta in G, G'. rewrite En in G, G'.
  assert (HS : FftSpec.sorts FftProps.rotation (FftModel.fftfreq 8 (1/8))) by (apply FftProps.C70_nonvacuous; [lia|lra]).
  assert (HR : FftSpec.resolved 8 1) by (unfold FftSpec.resolved; cbn; lia).
  destruct (G ltac:(lia) ltac:(lia) ltac:(lia) HP HO eq_refl eq_refl HV E ltac:(lra) ltac:(lia) ltac:(rewrite Ea; lia) HS HR ltac:(lia) ltac:(lia) (ex_intro _ 4%nat eq_refl) Ef) as [out [O1 O2]].
  destruct (G' ltac:(lia) ltac:(lia) ltac:(lia) HP HO eq_refl eq_refl HV E' ltac:(lra) ltac:(lia) ltac:(rewrite Ea; lia) HS HR Ef) as [out' [P1 [_ P2]]].
  exists out, out'. split; [exact O1|]. split; [exact P1|]. split; [exact (O2 1%nat eq_refl)|exact (P2 1%nat eq_refl)].
Qed.
