(** C98: symmetries of the maximum entropy spectrum (c/mem.c) and of the direct correlation (c/correlation.c): what a change of sign, conjugation, reversal
    of time, scaling or a global phase factor of the projected velocity does to the power spectrum, and what a change of frequency does. *)
From Verif Require Import MemModel MemSpec MemProofs CorrelationModel CorrelationSpec CorrelationProofs.
From Coq Require Import Lra Lia Psatz.
From Coquelicot Require Import Complex.
Open Scope R_scope.

(** ---------- specification ---------- *)
(** the buffer holds x 1 .. x N at the places that c/mem.c reads *)
Definition holds (data : arr R) (N : nat) (x : nat -> R) : Prop := forall j, (1 <= j <= N)%nat -> rd data j = Some (x j).
(** the power that the recursion still has to predict never falls below its cut off (1e-6) *)
Definition above_cutoff (x : nat -> R) (N M : nat) : Prop := forall k, (1 <= k <= M)%nat -> 1 / 1000000 <= burg_den N k (burg x N (k - 1)).

(** ---------- scaling ---------- *)
Lemma sum_from_scal c f : forall n a, sum_from a n (fun j => c * f j) = c * sum_from a n f.
Proof. induction n as [|n IH]; intros a; cbn [sum_from]; [ring|]. rewrite IH. ring. Qed.
Definition scaled (c : R) (s s' : burg_state) : Prop := (forall j, b_fwd s' j = c * b_fwd s j) /\ (forall j, b_bwd s' j = c * b_bwd s j) /\ (forall i, b_a s' i = b_a s i) /\ b_msd s' = c ^ 2 * b_msd s /\ b_dead s' = b_dead s.
Lemma scaled_num c s s' N k : scaled c s s' -> burg_num N k s' = c ^ 2 * burg_num N k s.
Proof. intros [F [B _]]. unfold burg_num. rewrite <- sum_from_scal. apply sum_from_ext. intros j _. rewrite F, B. ring. Qed.
Lemma scaled_den c s s' N k : scaled c s s' -> burg_den N k s' = c ^ 2 * burg_den N k s.
Proof. intros [F [B _]]. unfold burg_den. rewrite <- sum_from_scal. apply sum_from_ext. intros j _. rewrite F, B. ring. Qed.
Lemma scaled_init c x N : scaled c (burg_init x N) (burg_init (fun j => c * x j) N).
Proof.
  repeat split. cbn [burg_init b_msd]. unfold mean_square. rewrite (sum_from_ext _ (fun j => c ^ 2 * x j ^ 2)) by (intros; ring). rewrite sum_from_scal. unfold Rdiv. ring.
Qed.
(** when the same branch is taken at this order *)
Lemma scaled_step c N k s s' : c <> 0 -> scaled c s s' -> (b_dead s = false -> (1 / 1000000 <= burg_den N k s <-> 1 / 1000000 <= burg_den N k s')) -> scaled c (burg_step N k s) (burg_step N k s').
Proof.
  intros Hc S H. assert (D := scaled_den c s s' N k S). assert (U := scaled_num c s s' N k S). destruct S as [F [B [A [M Dd]]]]. unfold burg_step. rewrite Dd. destruct (b_dead s) eqn:Ed.
  { repeat split; congruence. }
  specialize (H eq_refl). assert (D0 := den_nonneg N k s). assert (D0' := den_nonneg N k s'). rewrite !Rabs_pos_eq by assumption.
  destruct (Rlt_dec (burg_den N k s') _) as [L'|L']; destruct (Rlt_dec (burg_den N k s) _) as [L|L].
  - repeat split; cbn [b_fwd b_bwd b_a b_msd]; try assumption. ring.
  - exfalso. destruct H as [H _]. specialize (H ltac:(lra)). lra.
  - exfalso. destruct H as [_ H]. specialize (H ltac:(lra)). lra.
  - assert (R : reflection N k s' = reflection N k s). { unfold reflection. rewrite D, U. assert (P : burg_den N k s <> 0) by lra. field. split; assumption. }
    repeat split; cbn [b_fwd b_bwd b_a b_msd]; rewrite ?R.
    + intros j. rewrite F, B. ring.
    + intros j. rewrite F, B. ring.
    + intros i. rewrite !A. reflexivity.
    + rewrite M. ring.
Qed.
Lemma above_alive x N : forall M, above_cutoff x N M -> b_dead (burg x N M) = false.
Proof.
  induction M as [|M IH]; intros H; [reflexivity|]. cbn [burg]. unfold burg_step. rewrite IH by (intros k Hk; apply H; lia).
  assert (C := H (S M) ltac:(lia)). replace (S M - 1)%nat with M in C by lia. rewrite Rabs_pos_eq by apply den_nonneg. destruct (Rlt_dec _ _); [lra|reflexivity].
Qed.
Lemma burg_scaled c x N : c <> 0 -> forall M, above_cutoff x N M -> above_cutoff (fun j => c * x j) N M -> scaled c (burg x N M) (burg (fun j => c * x j) N M).
Proof.
  intros Hc. induction M as [|M IH]; intros H H'; [apply scaled_init|]. cbn [burg]. apply scaled_step; [exact Hc|apply IH; intros k Hk; [apply H|apply H']; lia|].
  intros _. assert (C := H (S M) ltac:(lia)). assert (C' := H' (S M) ltac:(lia)). replace (S M - 1)%nat with M in C, C' by lia. split; intros _; assumption.
Qed.
(** for c = -1 the branches always agree *)
Lemma burg_opposite x N M : scaled (-1) (burg x N M) (burg (fun j => -1 * x j) N M).
Proof.
  induction M as [|M IH]; [apply scaled_init|]. cbn [burg]. apply scaled_step; [lra|exact IH|]. intros _. rewrite (scaled_den (-1) _ _ N (S M) IH). replace ((-1) ^ 2 * burg_den N (S M) (burg x N M)) with (burg_den N (S M) (burg x N M)) by ring. tauto.
Qed.
Lemma density_ext a a' M msd z : (forall i, a' i = a i) -> spectral_density a' M msd z = spectral_density a M msd z.
Proof. intros H. unfold spectral_density. rewrite (error_filter_ext a' a) by (intros; apply H). reflexivity. Qed.
Lemma spectrum_scaled c x x' N M z : c <> 0 -> scaled c (burg x N M) (burg x' N M) -> burg_spectrum x' N M z = c ^ 2 * burg_spectrum x N M z.
Proof.
  intros Hc [_ [_ [A [Ms _]]]]. unfold burg_spectrum. rewrite Ms. assert (C2 : c ^ 2 <> 0) by (apply pow_nonzero; exact Hc).
  destruct (Req_EM_T (b_msd (burg x N M)) 0) as [Z|Z].
  - rewrite Z, Rmult_0_r. destruct (Req_EM_T 0 0) as [_|N0]; [|exfalso; apply N0; reflexivity]. ring.
  - destruct (Req_EM_T (c ^ 2 * b_msd (burg x N M)) 0) as [Z'|Z']; [exfalso; apply Rmult_integral in Z'; tauto|]. rewrite (density_ext (b_a (burg x N M))) by exact A. unfold spectral_density, Rdiv. ring.
Qed.
Lemma burg_ext x y N : (2 <= N)%nat -> (forall j, (1 <= j <= N)%nat -> x j = y j) -> forall M, 
  (forall j, (1 <= j <= N - M - 1)%nat -> b_fwd (burg x N M) j = b_fwd (burg y N M) j /\ b_bwd (burg x N M) j = b_bwd (burg y N M) j) /\ (forall i, b_a (burg x N M) i = b_a (burg y N M) i) /\ b_msd (burg x N M) = b_msd (burg y N M) /\ b_dead (burg x N M) = b_dead (burg y N M).
Proof.
  intros HN H. induction M as [|M IH].
  - cbn [burg burg_init b_fwd b_bwd b_a b_msd b_dead]. repeat split; try (apply H; lia). unfold mean_square. f_equal. apply sum_from_ext. intros j Hj. rewrite H by lia. reflexivity.
  - destruct IH as [W [A [Ms D]]]. cbn [burg]. unfold burg_step. rewrite D. destruct (b_dead (burg y N M)) eqn:Ed; [repeat split; try assumption; try (apply W; lia); congruence|].
    assert (DE : burg_den N (S M) (burg x N M) = burg_den N (S M) (burg y N M)) by (apply sum_from_ext; intros j Hj; destruct (W j ltac:(lia)) as [-> ->]; reflexivity).
    assert (NU : burg_num N (S M) (burg x N M) = burg_num N (S M) (burg y N M)) by (apply sum_from_ext; intros j Hj; destruct (W j ltac:(lia)) as [-> ->]; reflexivity).
    unfold reflection. rewrite DE, NU. destruct (Rlt_dec _ _).
    + cbn [b_fwd b_bwd b_a b_msd b_dead]. repeat split; try (apply W; lia). assumption.
    + cbn [b_fwd b_bwd b_a b_msd b_dead]. repeat split.
      * destruct (W j ltac:(lia)) as [-> ->]. reflexivity.
      * destruct (W (j + 1)%nat ltac:(lia)) as [-> ->]. reflexivity.
      * intros i. rewrite !A. reflexivity.
      * rewrite Ms. reflexivity.
Qed.
(** ---------- reversal of time ---------- *)
Lemma sum_from_shift f : forall n a, sum_from (S a) n f = sum_from a n (fun i => f (S i)).
Proof. induction n as [|n IH]; intros a; cbn [sum_from]; [reflexivity|]. rewrite IH. reflexivity. Qed.
Lemma sum_from_rev f : forall n, sum_from 1 n f = sum_from 1 n (fun i => f (S n - i)%nat).
Proof.
  induction n as [|n IH]; [reflexivity|]. rewrite sum_from_S. cbn [sum_from]. rewrite (sum_from_shift (fun i => f (S (S n) - i)%nat)). rewrite (sum_from_ext (fun i => f (S (S n) - S i)%nat) (fun i => f (S n - i)%nat)) by (intros; f_equal; lia).
  rewrite <- IH. replace (S (S n) - 1)%nat with (1 + n)%nat by lia. ring.
Qed.
Definition mirrored (N k : nat) (s s' : burg_state) : Prop :=
  (b_dead s = false -> forall j, (1 <= j <= N - k - 1)%nat -> b_fwd s' j = b_bwd s (N - k - j)%nat /\ b_bwd s' j = b_fwd s (N - k - j)%nat) /\ (forall i, b_a s' i = b_a s i) /\ b_msd s' = b_msd s /\ b_dead s' = b_dead s.
Lemma burg_mirrored x N : (2 <= N)%nat -> forall M, mirrored N M (burg x N M) (burg (fun j => x (N + 1 - j)%nat) N M).
Proof.
  intros HN. induction M as [|M IH].
  - split; [|split; [reflexivity|split; [|reflexivity]]].
    + intros _ j Hj. cbn [burg burg_init b_fwd b_bwd]. split; f_equal; lia.
    + cbn [burg burg_init b_msd]. unfold mean_square. f_equal. rewrite (sum_from_rev (fun j => x j ^ 2)). apply sum_from_ext. intros j _. replace (N + 1 - j)%nat with (S N - j)%nat by lia. reflexivity.
  - set (x' := fun j => x (N + 1 - j)%nat) in *. destruct IH as [W [A [Ms D]]]. cbn [burg]. set (s := burg x N M) in *. set (s' := burg x' N M) in *.
    unfold burg_step, reflection. rewrite D. destruct (b_dead s) eqn:Ed; [split; [congruence|repeat split; try assumption; congruence]|]. specialize (W eq_refl).
    assert (DE : burg_den N (S M) s' = burg_den N (S M) s).
    { unfold burg_den. rewrite (sum_from_rev (fun j => b_fwd s j ^ 2 + b_bwd s j ^ 2)). apply sum_from_ext. intros j Hj. destruct (W j ltac:(lia)) as [-> ->]. replace (S (N - S M) - j)%nat with (N - M - j)%nat by lia. ring. }
    assert (NU : burg_num N (S M) s' = burg_num N (S M) s).
    { unfold burg_num. rewrite (sum_from_rev (fun j => b_fwd s j * b_bwd s j)). apply sum_from_ext. intros j Hj. destruct (W j ltac:(lia)) as [-> ->]. replace (S (N - S M) - j)%nat with (N - M - j)%nat by lia. ring. }
    rewrite DE, NU. destruct (Rlt_dec _ _).
    + split; [discriminate|]. repeat split. exact A.
    + split; [|split; [intros i; cbn [b_a]; rewrite !A; reflexivity|split; [cbn [b_msd]; rewrite Ms; reflexivity|reflexivity]]].
      intros _ j Hj. cbn [b_fwd b_bwd]. split.
      * destruct (W j ltac:(lia)) as [-> ->]. replace (N - S M - j + 1)%nat with (N - M - j)%nat by lia. reflexivity.
      * destruct (W (j + 1)%nat ltac:(lia)) as [-> ->]. replace (N - M - (j + 1))%nat with (N - S M - j)%nat by lia. reflexivity.
Qed.
Lemma spectrum_same x x' N M z : (forall i, b_a (burg x' N M) i = b_a (burg x N M) i) -> b_msd (burg x' N M) = b_msd (burg x N M) -> burg_spectrum x' N M z = burg_spectrum x N M z.
Proof. intros A Ms. unfold burg_spectrum. rewrite Ms. destruct (Req_EM_T _ 0); [reflexivity|]. apply density_ext, A. Qed.

(** ---------- C98: the maximum entropy spectrum ---------- *)
(** changing the sign of the real or of the imaginary part (conjugation, hence the opposite wave vector) changes nothing, nor does their exchange *)
Theorem C98_mem_conjugate : forall x y dr di di' N M dt freq, (2 <= N)%nat -> holds dr N x -> holds di N y -> holds di' N (fun j => - y j) ->
  mem_frequency dr di' N M dt freq = mem_frequency dr di N M dt freq /\ mem_frequency di dr N M dt freq = mem_frequency dr di N M dt freq.
Proof.
  intros x y dr di di' N M dt freq HN Hx Hy Hy'. rewrite (mem_frequency_ok x y dr di), (mem_frequency_ok y x di dr), (mem_frequency_ok x (fun j => -1 * y j) dr di') by (try assumption; intros j Hj; rewrite (Hy' j Hj); f_equal; ring).
  rewrite (spectrum_scaled (-1) y _ N M _ ltac:(lra) (burg_opposite y N M)). split; f_equal; ring.
Qed.
Print Assumptions C98_mem_conjugate.
(** the trajectory read backwards has the same spectrum *)
Theorem C98_mem_time_reversal : forall x y dr di dr' di' N M dt freq, (2 <= N)%nat -> holds dr N x -> holds di N y ->
  holds dr' N (fun j => x (N + 1 - j)%nat) -> holds di' N (fun j => y (N + 1 - j)%nat) -> mem_frequency dr' di' N M dt freq = mem_frequency dr di N M dt freq.
Proof.
  intros x y dr di dr' di' N M dt freq HN Hx Hy Hx' Hy'. rewrite (mem_frequency_ok x y dr di), (mem_frequency_ok _ _ dr' di' N M dt freq HN Hx' Hy') by assumption.
  destruct (burg_mirrored x N HN M) as [_ [A [Ms _]]]. destruct (burg_mirrored y N HN M) as [_ [A' [Ms' _]]].
  rewrite (spectrum_same x _ N M _ A Ms), (spectrum_same y _ N M _ A' Ms'). reflexivity.
Qed.
Print Assumptions C98_mem_time_reversal.
Lemma Cpow_conj z n : Cpow (Cconj z) n = Cconj (Cpow z n).
Proof. induction n as [|n IH]; cbn [Cpow]; [symmetry; apply Cconj_R|]. rewrite IH, Cconj_mult. reflexivity. Qed.
Lemma spectrum_conj x N M z : burg_spectrum x N M (Cconj z) = burg_spectrum x N M z.
Proof.
  unfold burg_spectrum. destruct (Req_EM_T _ 0); [reflexivity|]. unfold spectral_density. do 2 f_equal.
  replace (error_filter (b_a (burg x N M)) M (Cconj z)) with (Cconj (error_filter (b_a (burg x N M)) M z)); [apply Cmod_conj|].
  unfold error_filter. rewrite Cconj_minus, Cconj_R, Cconj_csum. f_equal. apply csum_from_ext. intros j _. rewrite Cconj_mult, Cconj_R, Cpow_conj. reflexivity.
Qed.
Lemma phase_form w : cexp (Cbuild 0 w) = (cos w, sin w). Proof. unfold cexp, Cbuild. cbn [fst snd]. rewrite exp_0, !Rmult_1_l. reflexivity. Qed.
(** opposite frequencies have the same power, and the spectrum repeats itself every 1/dt (twice the Nyquist frequency) *)
Theorem C98_mem_even_and_periodic : forall x y dr di N M dt freq, (2 <= N)%nat -> holds dr N x -> holds di N y ->
  mem_frequency dr di N M dt (- freq) = mem_frequency dr di N M dt freq /\
  (dt <> 0 -> mem_frequency dr di N M dt (freq + 1 / dt) = mem_frequency dr di N M dt freq).
Proof.
  intros x y dr di N M dt freq HN Hx Hy. rewrite !(mem_frequency_ok x y dr di) by assumption. rewrite !phase_form. split.
  - replace (- freq * 2 * PI * dt) with (- (freq * 2 * PI * dt)) by ring. rewrite cos_neg, sin_neg. set (w := freq * 2 * PI * dt). change (cos w, - sin w) with (Cconj (cos w, sin w)). rewrite !spectrum_conj. reflexivity.
  - intros Hd. replace ((freq + 1 / dt) * 2 * PI * dt) with (freq * 2 * PI * dt + 2 * PI) by (field; exact Hd). rewrite cos_plus, sin_plus, cos_2PI, sin_2PI. do 3 f_equal; f_equal; f_equal; ring.
Qed.
Print Assumptions C98_mem_even_and_periodic.
(** multiplying the velocities by a real number multiplies the spectrum by its square, as long as the recursion is not cut off *)
Theorem C98_mem_quadratic_partial : forall c x y dr di dr' di' N M dt freq s, (2 <= N)%nat -> c <> 0 -> holds dr N x -> holds di N y ->
  holds dr' N (fun j => c * x j) -> holds di' N (fun j => c * y j) ->
  above_cutoff x N M -> above_cutoff y N M -> above_cutoff (fun j => c * x j) N M -> above_cutoff (fun j => c * y j) N M ->
  mem_frequency dr di N M dt freq = Some s -> mem_frequency dr' di' N M dt freq = Some (c ^ 2 * s).
Proof.
  intros c x y dr di dr' di' N M dt freq s HN Hc Hx Hy Hx' Hy' A1 A2 A3 A4. rewrite (mem_frequency_ok x y dr di), (mem_frequency_ok _ _ dr' di' N M dt freq HN Hx' Hy') by assumption.
  intros E. injection E as <-. f_equal. rewrite (spectrum_scaled c x _ N M _ Hc (burg_scaled c x N Hc M A1 A3)), (spectrum_scaled c y _ N M _ Hc (burg_scaled c y N Hc M A2 A4)). ring.
Qed.
Print Assumptions C98_mem_quadratic_partial.
Lemma dead_stays x N : forall M, (1 <= M)%nat -> burg_den N 1 (burg x N 0) < 1 / 1000000 -> b_msd (burg x N M) = 0.
Proof.
  intros M HM H. apply dead_false_cases. induction M as [|M IH]; [lia|]. cbn [burg]. unfold burg_step. destruct M as [|M].
  - cbn [burg burg_init b_dead]. rewrite Rabs_pos_eq by apply den_nonneg. destruct (Rlt_dec _ _) as [_|L]; [reflexivity|]. exfalso. apply L. exact H.
  - rewrite IH by lia. apply IH. lia.
Qed.
(** ... but small velocities have no spectrum at all: for every series and order there is a factor below which the answer is zero at every frequency *)
Theorem C98_mem_cutoff_refuted : forall x y N M, (2 <= N)%nat -> (1 <= M)%nat ->
  exists c0, 0 < c0 /\ forall c dr di dt freq, Rabs c <= c0 -> holds dr N (fun j => c * x j) -> holds di N (fun j => c * y j) -> mem_frequency dr di N M dt freq = Some 0.
Proof.
  intros x y N M HN HM. set (D := burg_den N 1 (burg x N 0) + burg_den N 1 (burg y N 0)). assert (D1 := den_nonneg N 1 (burg x N 0)). assert (D2 := den_nonneg N 1 (burg y N 0)).
  assert (P : 0 < 1000 * (1 + D)) by (unfold D; lra). exists (/ (1000 * (1 + D))). split; [apply Rinv_0_lt_compat; exact P|]. intros c dr di dt freq Hc Hx Hy.
  assert (C2 : c ^ 2 * (1 + D) ^ 2 <= 1 / 1000000).
  { assert (A : Rabs c * (1000 * (1 + D)) <= 1). { apply (Rmult_le_compat_r (1000 * (1 + D))) in Hc; [|lra]. rewrite Rinv_l in Hc by lra. exact Hc. } assert (A0 := Rabs_pos c). rewrite <- (pow2_abs c).
    replace (Rabs c ^ 2 * (1 + D) ^ 2) with ((Rabs c * (1000 * (1 + D))) ^ 2 / 1000000) by field. assert (0 <= Rabs c * (1000 * (1 + D))) by nra. nra. }
  assert (Q : 0 <= c ^ 2) by apply pow2_ge_0.
  assert (Z : forall w, burg_den N 1 (burg w N 0) <= D -> b_msd (burg (fun j => c * w j) N M) = 0).
  { intros w Hw. apply dead_stays; [exact HM|]. cbn [burg]. rewrite (scaled_den c _ _ N 1 (scaled_init c w N)). assert (W0 := den_nonneg N 1 (burg_init w N)). change (burg w N 0) with (burg_init w N) in Hw. set (d := burg_den N 1 (burg_init w N)) in *.
    assert (d < (1 + D) ^ 2) by nra. destruct (Req_dec (c ^ 2) 0) as [E|E]; [rewrite E; lra|]. nra. }
  rewrite (mem_frequency_ok _ _ dr di N M dt freq HN Hx Hy). unfold burg_spectrum. rewrite (Z x), (Z y) by (unfold D; lra). destruct (Req_EM_T 0 0) as [_|N0]; [|exfalso; apply N0; reflexivity]. f_equal. ring.
Qed.
Print Assumptions C98_mem_cutoff_refuted.
Lemma burg_two x1 x2 : x1 ^ 2 + x2 ^ 2 = 1 -> let x := fun j => match j with 1%nat => x1 | _ => x2 end in
  b_msd (burg x 2 1) = 1 / 2 * (1 - (2 * (x1 * x2)) ^ 2) /\ b_a (burg x 2 1) 1%nat = 2 * (x1 * x2).
Proof.
  intros H x. assert (D : burg_den 2 1 (burg_init x 2) = 1) by (unfold burg_den; cbn [burg_init b_fwd b_bwd Nat.sub sum_from Nat.add x]; unfold x; lra).
  assert (U : burg_num 2 1 (burg_init x 2) = x1 * x2) by (unfold burg_num; cbn [burg_init b_fwd b_bwd Nat.sub sum_from Nat.add]; unfold x; ring).
  cbn [burg]. unfold burg_step, reflection. rewrite D, U. cbn [b_dead burg_init]. rewrite Rabs_R1. destruct (Rlt_dec 1 _); [lra|]. cbn [b_msd b_a Nat.eqb].
  assert (MS : b_msd (burg_init x 2) = 1 / 2) by (cbn [burg_init b_msd]; unfold mean_square; cbn [sum_from]; change (x 1%nat) with x1; change (x 2%nat) with x2; cbn [INR]; lra).
  split; [|field]. rewrite ?MS. replace (2 * (x1 * x2) / 1) with (2 * (x1 * x2)) by field. reflexivity.
Qed.
(** and a global phase factor matters, because the real and imaginary parts are treated as two separate series: the samples 1, i (after the ignored one) have power dt at zero
    frequency and none after a rotation by pi/4.  The projection on a wave vector is defined up to such a factor (the origin of the coordinates, C96, and the phase of the eigenvectors) *)
Theorem C98_mem_phase_refuted : forall dt, let theta := PI / 4 in
  let x := fun j => match j with 1%nat => 1 | _ => 0 end in let y := fun j => match j with 1%nat => 0 | _ => 1 end in
  let x' := fun j => x j * cos theta - y j * sin theta in let y' := fun j => x j * sin theta + y j * cos theta in
  (forall dr di, holds dr 2 x -> holds di 2 y -> mem_frequency dr di 2 1 dt 0 = Some dt) /\
  (forall dr di freq, holds dr 2 x' -> holds di 2 y' -> mem_frequency dr di 2 1 dt freq = Some 0).
Proof.
  intros dt theta x y x' y'. split.
  - intros dr di Hx Hy. rewrite (mem_frequency_ok x y dr di 2 1 dt 0 ltac:(lia) Hx Hy). rewrite phase_form. replace (0 * 2 * PI * dt) with 0 by ring. rewrite cos_0, sin_0.
    destruct (burg_two 1 0 ltac:(lra)) as [M1 A1]. destruct (burg_two 0 1 ltac:(lra)) as [M2 A2]. change (fun j : nat => match j with 1%nat => 1 | _ => 0 end) with x in M1, A1. change (fun j : nat => match j with 1%nat => 0 | _ => 1 end) with y in M2, A2.
    unfold burg_spectrum. rewrite M1, M2. replace (2 * (1 * 0)) with 0 in * by ring. replace (2 * (0 * 1)) with 0 in * by ring. destruct (Req_EM_T (1 / 2 * (1 - 0 ^ 2)) 0) as [E|_]; [lra|].
    assert (U : forall a, a 1%nat = 0 -> Cmod (error_filter a 1 (1, 0)) = 1). { intros a Ha. unfold error_filter. cbn [csum_from Cpow]. rewrite Ha. replace (Cminus _ _) with (RtoC 1); [apply Cmod_1|]. apply injective_projections; cbn; ring. }
    unfold spectral_density. rewrite (U _ A1), (U _ A2). f_equal. field.
  - intros dr di freq Hx Hy. rewrite (mem_frequency_ok _ _ dr di 2 1 dt freq ltac:(lia) Hx Hy).
    assert (CS : cos theta = sin theta) by (unfold theta; rewrite cos_PI4, sin_PI4; reflexivity). assert (S2 : sin theta ^ 2 = 1 / 2). { assert (Q := sin2_cos2 theta). unfold Rsqr in Q. rewrite CS in Q. nra. }
    set (s := sin theta) in *. clearbody s.
    assert (Z : forall w a b, w 1%nat = a -> w 2%nat = b -> a ^ 2 = 1 / 2 -> b ^ 2 = 1 / 2 -> b_msd (burg w 2 1) = 0).
    { intros w a b E1 E2 Ha Hb. destruct (burg_two a b ltac:(lra)) as [Ms _]. destruct (burg_ext w (fun j => match j with 1%nat => a | _ => b end) 2 ltac:(lia)) with (M := 1%nat) as [_ [_ [E _]]].
      - intros j Hj. destruct j as [|[|[|j]]]; try lia; assumption.
      - rewrite E, Ms. replace ((2 * (a * b)) ^ 2) with (4 * (a ^ 2 * b ^ 2)) by ring. rewrite Ha, Hb. field. }
    unfold burg_spectrum. rewrite (Z x' s (- s)), (Z y' s s); try assumption; try (unfold x', y', x, y; rewrite ?CS; ring); try (replace ((- s) ^ 2) with (s ^ 2) by ring; assumption).
    destruct (Req_EM_T 0 0) as [_|N0]; [|exfalso; apply N0; reflexivity]. f_equal. ring.
Qed.
Print Assumptions C98_mem_phase_refuted.

(** ---------- C98: the direct correlation ---------- *)
Lemma sum_n_scal c f n : sum_n n (fun j => c * f j) = c * sum_n n f. Proof. induction n as [|n IH]; cbn [sum_n]; [ring|]. rewrite IH. ring. Qed.
Lemma sum_n_ext f g n : (forall j, f j = g j) -> sum_n n f = sum_n n g. Proof. intros H. induction n as [|n IH]; cbn [sum_n]; [reflexivity|]. rewrite IH, H. reflexivity. Qed.
Lemma vel_scaled c v k : vel (map (Cmult c) v) k = Cmult c (vel v k).
Proof. unfold vel. rewrite <- (map_nth (Cmult c)). f_equal. ring. Qed.
Lemma pair_scaled c v j k p : Re (Cmult (Cmult (Cconj (vel (map (Cmult c) v) j)) (vel (map (Cmult c) v) k)) p) = Cmod c ^ 2 * Re (Cmult (Cmult (Cconj (vel v j)) (vel v k)) p).
Proof. rewrite !vel_scaled. rewrite <- Cmod_sqr. destruct c as [c1 c2]. destruct (vel v j), (vel v k), p. cbn. ring. Qed.
(** multiplying the velocities by a complex number multiplies the value by its squared modulus, whatever its phase *)
Theorem C98_direct_quadratic : forall c v omega dt inc fuel method, (1 <= inc)%nat -> (inc <= length v)%nat -> (length v < fuel)%nat ->
  exists s, EvaluateCorrelation fuel omega v dt (Z.of_nat inc) method = Number s /\ EvaluateCorrelation fuel omega (map (Cmult c) v) dt (Z.of_nat inc) method = Number (Cmod c ^ 2 * s).
Proof.
  intros c v omega dt inc fuel method H1 H2 H3. assert (L := map_length (Cmult c) v). destruct method.
  - exists (actual_correlation omega v dt inc). rewrite !evaluate_value by (rewrite ?L; assumption). split; [reflexivity|]. f_equal. unfold actual_correlation. rewrite L. unfold Rdiv.
    rewrite (sum_n_ext _ (fun q => Cmod c ^ 2 * (let i := (q * inc)%nat in sum_n (length v - i - inc) (fun j => exp (omega * (INR i * dt)) * Re (Cmult (Cmult (Cconj (vel v j)) (vel v (j + i))) (CorrelationSpec.phase 1)))))).
    + rewrite sum_n_scal. ring.
    + intros q. cbv zeta. rewrite <- sum_n_scal. apply sum_n_ext. intros j. rewrite pair_scaled. ring.
  - exists (actual_trapezoid omega v dt inc). rewrite !evaluate_trapezoid by (rewrite ?L; assumption). split; [reflexivity|]. f_equal. unfold actual_trapezoid. rewrite L. unfold Rdiv.
    rewrite <- !(Rmult_assoc (Cmod c ^ 2)), <- (sum_n_scal (Cmod c ^ 2)). do 2 f_equal. apply sum_n_ext. intros q. cbv zeta. rewrite <- sum_n_scal. apply sum_n_ext. intros j. rewrite !pair_scaled. ring.
Qed.
Print Assumptions C98_direct_quadratic.
Example C98_nonvacuous : holds (of_list [7; 1; 0]) 2 (fun j => match j with 1%nat => 1 | _ => 0 end) /\ above_cutoff (fun j => match j with 1%nat => 1 | _ => 0 end) 2 1.
Proof.
  split; [intros j Hj; destruct j as [|[|[|j]]]; try lia; reflexivity|]. intros k Hk. assert (k = 1%nat) as -> by lia. unfold burg_den. cbn [burg burg_init b_fwd b_bwd Nat.sub sum_from Nat.add]. lra.
Qed.
