(** C113: the temperature of a trajectory is its mean kinetic energy divided by 3/2 k_B. *)
From Coq Require Import Reals List Lra Lia Psatz Permutation.
Import ListNotations.
From Verif Require Import BoltzmannModel.
Open Scope R_scope.

(* ---------- specification ---------- *)
(** Maxwell distribution of speeds with scale s *)
Definition maxwell (s x : R) : R := sqrt (2 / PI) * x ^ 2 * exp (- x ^ 2 / (2 * s ^ 2)) / s ^ 3.
(** joint probability density of a sample *)
Definition likelihood (s : R) (data : list R) : R := fold_right Rmult 1 (map (maxwell s) data).
(** s is a maximum-likelihood estimate of the scale, which is what scipy's fit looks for *)
Definition most_likely (data : list R) (s : R) : Prop := 0 < s /\ forall s', 0 < s' -> likelihood s' data <= likelihood s data.
(** twice the kinetic energy of a frame: the sum over the atoms of m (vx^2 + vy^2 + ...) *)
Definition twice_kinetic (masses : list R) (frame : list (list R)) : R :=
  fold_right Rplus 0 (map (fun p => fst p * fold_right Rplus 0 (map (fun x => x * x) (snd p))) (combine masses frame)).
Definition total_twice_kinetic (masses : list R) (velocity : list (list (list R))) : R := fold_right Rplus 0 (map (twice_kinetic masses) velocity).
(** Boltzmann's constant in u A^2 / (ps^2 K) *)
Definition k_B : R := 831446 / 1000000.
(** No atom is at rest, all masses are positive, each frame has one velocity per mass. *)
Definition moving (masses : list R) (velocity : list (list (list R))) : Prop :=
  velocity <> [] /\ masses <> [] /\ (forall m, In m masses -> 0 < m) /\
  forall frame, In frame velocity -> length frame = length masses /\ forall v, In v frame -> exists x, In x v /\ x <> 0.

(* ---------- proof ---------- *)
Definition sumsq (l : list R) : R := fold_right Rplus 0 (map (fun x => x ^ 2) l).
Lemma sumsq_nonneg l : 0 <= sumsq l.
Proof. unfold sumsq. induction l as [|x l IH]; cbn [map fold_right]; [lra|]. assert (H := pow2_ge_0 x). lra. Qed.
Lemma sumsq_pos l x : In x l -> x <> 0 -> 0 < sumsq l.
Proof.
  induction l as [|y l IH]; intros H N; [contradiction|]. unfold sumsq in *. cbn [map fold_right]. assert (P := sumsq_nonneg l). unfold sumsq in P. destruct H as [-> |H].
  - assert (0 < x ^ 2) by (replace (x ^ 2) with (Rsqr x) by (unfold Rsqr; ring); apply Rlt_0_sqr, N). lra.
  - specialize (IH H N). assert (Q := pow2_ge_0 y). lra.
Qed.
Lemma likelihood_form s data : 0 < s -> likelihood s data =
  fold_right Rmult 1 (map (fun x => sqrt (2 / PI) * x ^ 2) data) * exp (- sumsq data / (2 * s ^ 2) - 3 * INR (length data) * ln s).
Proof.
  intros Hs. unfold likelihood, sumsq. induction data as [|x data IH].
  - cbn [map fold_right length]. replace (- 0 / (2 * s ^ 2) - 3 * INR 0 * ln s) with 0 by (cbn; field; lra). rewrite exp_0. ring.
  - cbn [map fold_right]. rewrite IH. change (length (x :: data)) with (S (length data)). rewrite S_INR. set (Q := fold_right Rplus 0 (map (fun y => y ^ 2) data)). set (P := fold_right Rmult 1 (map (fun y => sqrt (2 / PI) * y ^ 2) data)).
    replace (- (x ^ 2 + Q) / (2 * s ^ 2) - 3 * (INR (length data) + 1) * ln s) with (- x ^ 2 / (2 * s ^ 2) + (- Q / (2 * s ^ 2) - 3 * INR (length data) * ln s) + - (3 * ln s)) by (field; lra).
    rewrite !exp_plus, exp_Ropp. assert (E : exp (3 * ln s) = s ^ 3). { replace (3 * ln s) with (ln s + ln s + ln s) by ring. rewrite !exp_plus, exp_ln by exact Hs. ring. }
    rewrite E. unfold maxwell. field. lra.
Qed.
Lemma prefactor_pos data : (forall x, In x data -> 0 < x) -> 0 < fold_right Rmult 1 (map (fun x => sqrt (2 / PI) * x ^ 2) data).
Proof.
  intros H. induction data as [|x data IH]; cbn [map fold_right]; [lra|]. apply Rmult_lt_0_compat; [|apply IH; intros y Hy; apply H; right; exact Hy].
  assert (P := PI_RGT_0). apply Rmult_lt_0_compat; [apply sqrt_lt_R0, Rdiv_lt_0_compat; lra|apply pow_lt, H; left; reflexivity].
Qed.
Lemma ln_strict u : 0 < u -> u <> 1 -> ln u < u - 1.
Proof.
  intros Hu N. assert (L : ln u <> 0) by (intros E; apply N; rewrite <- (exp_ln u Hu), E, exp_0; reflexivity).
  assert (H := exp_ineq1 (ln u) L). rewrite exp_ln in H by exact Hu. lra.
Qed.
(** The exponent at the root mean square over sqrt 3 exceeds the exponent anywhere else. *)
Lemma exponent_gap Q N s : 0 < Q -> 0 < N -> 0 < s -> s ^ 2 <> Q / (3 * N) ->
  - Q / (2 * s ^ 2) - 3 * N * ln s < - Q / (2 * (sqrt (Q / (3 * N))) ^ 2) - 3 * N * ln (sqrt (Q / (3 * N))).
Proof.
  intros HQ HN Hs Ne. set (q := Q / (3 * N)). assert (Hq : 0 < q) by (apply Rdiv_lt_0_compat; lra).
  assert (S0 : 0 < sqrt q) by (apply sqrt_lt_R0, Hq). assert (S2 : sqrt q ^ 2 = q) by (apply pow2_sqrt; lra). rewrite S2.
  assert (L0 : 2 * ln (sqrt q) = ln q). { rewrite <- S2 at 2. replace (sqrt q ^ 2) with (sqrt q * sqrt q) by ring. rewrite ln_mult by assumption. ring. }
  assert (L1 : 2 * ln s = ln (s ^ 2)). { replace (s ^ 2) with (s * s) by ring. rewrite ln_mult by assumption. ring. }
  assert (P2 : 0 < s ^ 2) by (apply pow_lt, Hs). set (u := q / s ^ 2). assert (Hu : 0 < u) by (apply Rdiv_lt_0_compat; assumption).
  assert (U1 : u <> 1). { intros E. apply Ne. unfold u in E. fold q. apply (f_equal (fun z => z * s ^ 2)) in E. unfold Rdiv in E. rewrite Rmult_assoc, Rinv_l, Rmult_1_l, Rmult_1_r in E by lra. symmetry. exact E. }
  assert (G := ln_strict u Hu U1). assert (Lu : ln u = ln q - ln (s ^ 2)). { unfold u, Rdiv. rewrite ln_mult by (try assumption; apply Rinv_0_lt_compat, P2). rewrite ln_Rinv by exact P2. ring. }
  assert (EQ : Q = 3 * N * q) by (unfold q; field; lra). rewrite EQ.
  replace (- (3 * N * q) / (2 * s ^ 2)) with (- (3 * N / 2) * u) by (unfold u; field; lra).
  replace (- (3 * N * q) / (2 * q)) with (- (3 * N / 2)) by (field; lra).
  replace (3 * N * ln s) with (3 * N / 2 * ln (s ^ 2)) by (rewrite <- L1; field). replace (3 * N * ln (sqrt q)) with (3 * N / 2 * ln q) by (rewrite <- L0; field).
  assert (0 < 3 * N / 2 * (u - 1 - (ln q - ln (s ^ 2)))) by (apply Rmult_lt_0_compat; lra). lra.
Qed.
Lemma most_likely_iff data s : data <> [] -> (forall x, In x data -> 0 < x) -> most_likely data s <-> s = sqrt (sumsq data / (3 * INR (length data))).
Proof.
  intros Hn H. assert (HN : 0 < INR (length data)) by (apply lt_0_INR; destruct data; [contradiction|cbn; lia]).
  assert (HQ : 0 < sumsq data) by (destruct data as [|x data]; [contradiction|]; apply (sumsq_pos (x :: data) x); [left; reflexivity|assert (P := H x (or_introl eq_refl)); lra]).
  set (s0 := sqrt (sumsq data / (3 * INR (length data)))). assert (S0 : 0 < s0) by (apply sqrt_lt_R0, Rdiv_lt_0_compat; lra).
  assert (F := prefactor_pos data H).
  assert (Best : forall s', 0 < s' -> s' <> s0 -> likelihood s' data < likelihood s0 data).
  { intros s' P Ne. rewrite (likelihood_form s' data P), (likelihood_form s0 data S0). apply Rmult_lt_compat_l; [exact F|]. apply exp_increasing. apply exponent_gap; try assumption.
    intros E. apply Ne. unfold s0. rewrite <- E. symmetry. apply sqrt_pow2. lra. }
  split.
  - intros (P & M). destruct (Req_dec s s0) as [E|Ne]; [exact E|]. assert (A := Best s P Ne). assert (B := M s0 S0). lra.
  - intros ->. split; [exact S0|]. intros s' P. destruct (Req_dec s' s0) as [-> |Ne]; [lra|]. left. apply Best; assumption.
Qed.
Lemma norm_sq v : norm v ^ 2 = sumsq v.
Proof. unfold norm. apply pow2_sqrt. apply sumsq_nonneg. Qed.
Lemma weighted_sumsq m v : 0 <= m -> sumsq (map (fun x => x * sqrt m) v) = m * fold_right Rplus 0 (map (fun x => x * x) v).
Proof.
  intros Hm. unfold sumsq. induction v as [|x v IH]; cbn [map fold_right]; [ring|]. rewrite IH. replace ((x * sqrt m) ^ 2) with (x * x * (sqrt m) ^ 2) by ring. rewrite pow2_sqrt by exact Hm. ring.
Qed.
Lemma sumsq_app a b : sumsq (a ++ b) = sumsq a + sumsq b.
Proof. unfold sumsq. induction a as [|x a IH]; cbn [app map fold_right]; [ring|]. rewrite IH. ring. Qed.
Lemma frame_sumsq masses : forall frame, (forall m, In m masses -> 0 < m) -> sumsq (map norm (weighted masses frame)) = twice_kinetic masses frame.
Proof.
  unfold weighted, twice_kinetic. induction masses as [|m masses IH]; intros [|v frame] H; cbn [combine map fold_right fst snd]; try reflexivity.
  change (sumsq (norm (map (fun x => x * sqrt m) v) :: map norm (map (fun p => map (fun x => x * sqrt (fst p)) (snd p)) (combine masses frame)))) with (norm (map (fun x => x * sqrt m) v) ^ 2 + sumsq (map norm (map (fun p => map (fun x => x * sqrt (fst p)) (snd p)) (combine masses frame)))).
  rewrite norm_sq, weighted_sumsq by (left; apply H; left; reflexivity). rewrite IH by (intros k Hk; apply H; right; exact Hk). reflexivity.
Qed.
Lemma speeds_sumsq masses velocity : (forall m, In m masses -> 0 < m) -> sumsq (speeds masses velocity) = total_twice_kinetic masses velocity.
Proof.
  intros H. unfold speeds, total_twice_kinetic. induction velocity as [|f velocity IH]; cbn [flat_map map fold_right]; [reflexivity|]. rewrite sumsq_app, frame_sumsq, IH by exact H. reflexivity.
Qed.
Lemma speeds_length masses velocity : (forall frame, In frame velocity -> length frame = length masses) -> length (speeds masses velocity) = (length velocity * length masses)%nat.
Proof.
  intros H. unfold speeds. induction velocity as [|f velocity IH]; [reflexivity|]. cbn [flat_map length Nat.mul]. rewrite app_length, IH by (intros g Hg; apply H; right; exact Hg).
  unfold weighted. rewrite !map_length, combine_length, (H f (or_introl eq_refl)), Nat.min_id. reflexivity.
Qed.
Lemma speeds_pos masses velocity : moving masses velocity -> forall x, In x (speeds masses velocity) -> 0 < x.
Proof.
  intros (_ & _ & Hm & Hf) x Hx. unfold speeds in Hx. apply in_flat_map in Hx as (f & If & Hx). apply in_map_iff in Hx as (w & <- & Hw). unfold weighted in Hw.
  apply in_map_iff in Hw as ((m & v) & <- & Hp). cbn [fst snd]. assert (A := in_combine_l _ _ _ _ Hp). assert (B := in_combine_r _ _ _ _ Hp).
  destruct (Hf f If) as (_ & G). destruct (G v B) as (y & Iy & Ny). unfold norm. apply sqrt_lt_R0. apply (sumsq_pos _ (y * sqrt m)).
  - apply in_map_iff. exists y. auto.
  - apply Rmult_integral_contrapositive_currified; [exact Ny|]. assert (0 < sqrt m) by (apply sqrt_lt_R0, Hm, A). lra.
Qed.
Lemma speeds_some masses velocity : moving masses velocity -> speeds masses velocity <> [] /\ 0 < INR (length (speeds masses velocity)).
Proof.
  intros (H1 & H2 & _ & H4). assert (L : (0 < length (speeds masses velocity))%nat) by (rewrite speeds_length by (intros f Hf; apply H4, Hf); destruct velocity; [contradiction|]; destruct masses; [contradiction|]; cbn; lia).
  split; [intros E; rewrite E in L; cbn in L; lia|apply lt_0_INR, L].
Qed.

(* ---------- theorems ---------- *)
(** Whatever maximum-likelihood estimator is used, the temperature T satisfies <sum_i m_i v_i^2> = 3 N k_B T: it is the kinetic temperature. *)
Theorem C113_kinetic_temperature : forall fit masses velocity, (forall data guess, data <> [] -> (forall x, In x data -> 0 < x) -> most_likely data (fit data guess)) -> moving masses velocity ->
  total_twice_kinetic masses velocity / INR (length velocity) = 3 * INR (length masses) * k_B * boltzmann_distribution fit masses velocity.
Proof.
  intros fit masses velocity HF M. destruct (speeds_some masses velocity M) as (Hn & HN). assert (HP := speeds_pos masses velocity M).
  unfold boltzmann_distribution. set (g := average _). assert (E := HF (speeds masses velocity) g Hn HP). apply most_likely_iff in E; [|exact Hn|exact HP]. rewrite E.
  rewrite pow2_sqrt by (apply Rmult_le_pos; [apply sumsq_nonneg|left; apply Rinv_0_lt_compat; lra]).
  destruct M as (M1 & M2 & Hm & Hf). rewrite speeds_sumsq by exact Hm. rewrite speeds_length in * by (intros f If; apply Hf, If). rewrite mult_INR in *.
  assert (0 < INR (length velocity)) by (apply lt_0_INR; destruct velocity; [contradiction|cbn; lia]). assert (0 < INR (length masses)) by (apply lt_0_INR; destruct masses; [contradiction|cbn; lia]).
  unfold k_B, kb_boltzmann. field. lra.
Qed.
Print Assumptions C113_kinetic_temperature.
(** Such an estimate exists and is unique, so the temperature does not depend on the starting guess nor on the estimator. *)
Theorem C113_estimate_unique : forall data, data <> [] -> (forall x, In x data -> 0 < x) ->
  exists s, most_likely data s /\ (forall s', most_likely data s' -> s' = s) /\ 3 * INR (length data) * s ^ 2 = fold_right Rplus 0 (map (fun x => x ^ 2) data).
Proof.
  intros data Hn H. exists (sqrt (sumsq data / (3 * INR (length data)))). split; [apply most_likely_iff; auto|]. split; [intros s' M; apply most_likely_iff in M; assumption|].
  assert (HN : 0 < INR (length data)) by (apply lt_0_INR; destruct data; [contradiction|cbn; lia]). rewrite pow2_sqrt by (apply Rmult_le_pos; [apply sumsq_nonneg|left; apply Rinv_0_lt_compat; lra]).
  unfold sumsq. field. lra.
Qed.
Print Assumptions C113_estimate_unique.
(** It only depends on the kinetic energies: the order of the frames, the directions of the velocities and the way the energy is spread over atoms and frames play no role. *)
Theorem C113_only_energy : forall fit fit' masses velocity velocity',
  (forall data guess, data <> [] -> (forall x, In x data -> 0 < x) -> most_likely data (fit data guess)) -> (forall data guess, data <> [] -> (forall x, In x data -> 0 < x) -> most_likely data (fit' data guess)) ->
  moving masses velocity -> moving masses velocity' -> length velocity = length velocity' ->
  (boltzmann_distribution fit masses velocity < boltzmann_distribution fit' masses velocity' <-> total_twice_kinetic masses velocity < total_twice_kinetic masses velocity') /\
  (boltzmann_distribution fit masses velocity = boltzmann_distribution fit' masses velocity' <-> total_twice_kinetic masses velocity = total_twice_kinetic masses velocity').
Proof.
  intros fit fit' masses velocity velocity' HF HF' M M' L. assert (E := C113_kinetic_temperature fit masses velocity HF M). assert (E' := C113_kinetic_temperature fit' masses velocity' HF' M'). rewrite <- L in E'.
  assert (P : 0 < INR (length velocity)) by (apply lt_0_INR; destruct M as (M1 & _); destruct velocity; [contradiction|cbn; lia]).
  assert (Q : 0 < INR (length masses)) by (apply lt_0_INR; destruct M as (_ & M2 & _); destruct masses; [contradiction|cbn; lia]).
  set (T := boltzmann_distribution fit masses velocity) in *. set (T' := boltzmann_distribution fit' masses velocity') in *. set (c := INR (length velocity) * 3 * INR (length masses) * k_B).
  assert (C : 0 < c) by (unfold c, k_B; repeat apply Rmult_lt_0_compat; lra).
  assert (K : total_twice_kinetic masses velocity = c * T). { unfold c. replace (total_twice_kinetic masses velocity) with (total_twice_kinetic masses velocity / INR (length velocity) * INR (length velocity)) by (field; lra). rewrite E. ring. }
  assert (K' : total_twice_kinetic masses velocity' = c * T'). { unfold c. replace (total_twice_kinetic masses velocity') with (total_twice_kinetic masses velocity' / INR (length velocity) * INR (length velocity)) by (field; lra). rewrite E'. ring. }
  rewrite K, K'. split; split; intros H.
  - apply Rmult_lt_compat_l; assumption.
  - apply (Rmult_lt_reg_l c); assumption.
  - rewrite H. reflexivity.
  - apply (Rmult_eq_reg_l c); [exact H|lra].
Qed.
Print Assumptions C113_only_energy.
(** Scaling all velocities by k scales the temperature by k squared. *)
Theorem C113_scaling : forall fit masses velocity k, (forall data guess, data <> [] -> (forall x, In x data -> 0 < x) -> most_likely data (fit data guess)) -> moving masses velocity -> k <> 0 ->
  boltzmann_distribution fit masses (map (map (map (Rmult k))) velocity) = k ^ 2 * boltzmann_distribution fit masses velocity.
Proof.
  intros fit masses velocity k HF M Hk.
  assert (M' : moving masses (map (map (map (Rmult k))) velocity)).
  { destruct M as (M1 & M2 & M3 & M4). split; [destruct velocity; [contradiction|discriminate]|]. split; [exact M2|]. split; [exact M3|]. intros f If. apply in_map_iff in If as (g & <- & Ig).
    destruct (M4 g Ig) as (L & G). split; [rewrite map_length; exact L|]. intros v Iv. apply in_map_iff in Iv as (w & <- & Iw). destruct (G w Iw) as (x & Ix & Nx). exists (k * x). split; [apply in_map, Ix|]. apply Rmult_integral_contrapositive_currified; assumption. }
  assert (E := C113_kinetic_temperature fit masses velocity HF M). assert (E' := C113_kinetic_temperature fit masses _ HF M'). rewrite map_length in E'.
  assert (K : total_twice_kinetic masses (map (map (map (Rmult k))) velocity) = k ^ 2 * total_twice_kinetic masses velocity).
  { clear. unfold total_twice_kinetic. induction velocity as [|f velocity IH]; cbn [map fold_right]; [ring|]. rewrite IH.
    assert (F : twice_kinetic masses (map (map (Rmult k)) f) = k ^ 2 * twice_kinetic masses f); [|rewrite F; ring].
    clear. unfold twice_kinetic. revert f. induction masses as [|m masses IH]; intros [|v f]; cbn [map combine fold_right fst snd]; try ring. rewrite IH.
    assert (F : fold_right Rplus 0 (map (fun x => x * x) (map (Rmult k) v)) = k ^ 2 * fold_right Rplus 0 (map (fun x => x * x) v)); [|rewrite F; ring].
    clear. induction v as [|x v IH]; cbn [map fold_right]; [ring|]. rewrite IH. ring. }
  rewrite K in E'. assert (P : 0 < INR (length velocity)) by (apply lt_0_INR; destruct M as (M1 & _); destruct velocity; [contradiction|cbn; lia]).
  assert (Q : 0 < INR (length masses)) by (apply lt_0_INR; destruct M as (_ & M2 & _); destruct masses; [contradiction|cbn; lia]).
  apply (Rmult_eq_reg_l (3 * INR (length masses) * k_B)); [rewrite <- E'|unfold k_B; nra].
  replace (3 * INR (length masses) * k_B * (k ^ 2 * boltzmann_distribution fit masses velocity)) with (k ^ 2 * (3 * INR (length masses) * k_B * boltzmann_distribution fit masses velocity)) by ring. rewrite <- E. field. lra.
Qed.
Print Assumptions C113_scaling.

(** the sum over all atoms and frames of sqrt(m) |v| *)
Definition total_speed (masses : list R) (velocity : list (list (list R))) : R :=
  fold_right Rplus 0 (map (fun frame => fold_right Rplus 0 (map (fun p => sqrt (fst p * fold_right Rplus 0 (map (fun x => x * x) (snd p)))) (combine masses frame))) velocity).
Lemma sum_app' a b : fold_right Rplus 0 (a ++ b) = fold_right Rplus 0 a + fold_right Rplus 0 b.
Proof. induction a as [|x a IH]; cbn [app fold_right]; [ring|]. rewrite IH. ring. Qed.
Lemma speeds_sum masses velocity : (forall m, In m masses -> 0 < m) -> fold_right Rplus 0 (speeds masses velocity) = total_speed masses velocity.
Proof.
  intros H. unfold speeds, total_speed. induction velocity as [|f velocity IH]; cbn [flat_map map fold_right]; [reflexivity|]. rewrite sum_app', IH. f_equal. clear IH velocity.
  unfold weighted. rewrite map_map. revert f. induction masses as [|m masses IH]; intros [|v f]; cbn [combine map fold_right fst snd]; try reflexivity.
  rewrite IH by (intros k Hk; apply H; right; exact Hk). f_equal. unfold norm. f_equal. apply weighted_sumsq. left. apply H. left. reflexivity.
Qed.
Lemma squared_deviations l a : fold_right Rplus 0 (map (fun x => (x - a) ^ 2) l) = sumsq l - 2 * a * fold_right Rplus 0 l + INR (length l) * a ^ 2.
Proof.
  unfold sumsq. induction l as [|x l IH]; [cbn; ring|]. change (length (x :: l)) with (S (length l)). rewrite S_INR. cbn [map fold_right]. rewrite IH. ring.
Qed.
(** The printed average is the mean of sqrt(m)|v| over all atoms and frames, the printed deviation is not negative, and the sum of their squares is 3 k_B T
    with the printed temperature; the fit starts from half their sum, which is positive. *)
Theorem C113_printed : forall fit masses velocity, (forall data guess, data <> [] -> (forall x, In x data -> 0 < x) -> most_likely data (fit data guess)) -> moving masses velocity ->
  let (a, d) := printed_moments masses velocity in
  a = total_speed masses velocity / (INR (length velocity) * INR (length masses)) /\ 0 < a /\ 0 <= d /\
  a ^ 2 + d ^ 2 = 3 * k_B * boltzmann_distribution fit masses velocity /\
  forall any : list R -> R -> R, boltzmann_distribution any masses velocity = boltzmann_distribution (fun data _ => any data ((a + d) / 2)) masses velocity.
Proof.
  intros fit masses velocity HF M. destruct (speeds_some masses velocity M) as (Hn & HN). assert (HP := speeds_pos masses velocity M).
  assert (EK := C113_kinetic_temperature fit masses velocity HF M). destruct M as (M1 & M2 & Hm & Hf).
  assert (HL : length (speeds masses velocity) = (length velocity * length masses)%nat) by (apply speeds_length; intros f If; apply Hf, If).
  assert (P1 : 0 < INR (length velocity)) by (apply lt_0_INR; destruct velocity; [contradiction|cbn; lia]). assert (P2 : 0 < INR (length masses)) by (apply lt_0_INR; destruct masses; [contradiction|cbn; lia]).
  assert (HS := speeds_sum masses velocity Hm). assert (HQ := speeds_sumsq masses velocity Hm).
  unfold printed_moments. cbv zeta. set (v := speeds masses velocity) in *.
  assert (Pv : 0 < fold_right Rplus 0 v).
  { clear - Hn HP. destruct v as [|x v]; [contradiction|]. cbn [fold_right]. assert (A := HP x (or_introl eq_refl)). assert (B : 0 <= fold_right Rplus 0 v); [|lra].
    assert (G : forall y, In y v -> 0 < y) by (intros y Hy; apply HP; right; exact Hy). clear - G. induction v as [|y v IH]; cbn [fold_right]; [lra|].
    assert (A := G y (or_introl eq_refl)). assert (B := IH (fun z Hz => G z (or_intror Hz))). lra. }
  assert (D2 : deviation v ^ 2 = sumsq v / INR (length v) - average v ^ 2).
  { unfold deviation. rewrite pow2_sqrt.
    - unfold average at 1. rewrite map_length, squared_deviations. unfold average. field. lra.
    - unfold average at 1. rewrite map_length. apply Rmult_le_pos; [|left; apply Rinv_0_lt_compat, HN].
      generalize (average v). intros g. clear. induction v as [|x v IH]; cbn [map fold_right]; [lra|]. assert (A := pow2_ge_0 (x - g)). lra. }
  split; [|split; [|split; [|split]]].
  - unfold average. rewrite HS, HL, mult_INR. reflexivity.
  - unfold average. apply Rdiv_lt_0_compat; assumption.
  - apply sqrt_pos.
  - rewrite D2, HQ, HL, mult_INR. apply (Rmult_eq_reg_l (INR (length masses))); [|lra].
    replace (INR (length masses) * (3 * k_B * boltzmann_distribution fit masses velocity)) with (3 * INR (length masses) * k_B * boltzmann_distribution fit masses velocity) by ring.
    rewrite <- EK. field. lra.
  - intros any. unfold boltzmann_distribution. fold v. f_equal. f_equal. f_equal. unfold average at 1. cbn [fold_right length INR]. f_equal; lra.
Qed.
Print Assumptions C113_printed.

(** Two frames of two atoms; the estimator of the closed form satisfies the hypothesis on [fit]. *)
Example C113_nonvacuous : let masses := [2; 8] in let velocity := [[[1; 0; 0]; [0; 1; 2]]; [[0; 0; -3]; [1; 1; 1]]] in
  moving masses velocity /\ total_twice_kinetic masses velocity = 84 /\
  exists fit, (forall data guess, data <> [] -> (forall x, In x data -> 0 < x) -> most_likely data (fit data guess)) /\ boltzmann_distribution fit masses velocity = 84 / 12 / k_B.
Proof.
  intros masses velocity. assert (M : moving masses velocity).
  { split; [discriminate|]. split; [discriminate|]. split; [intros m [<-|[<-|[]]]; lra|].
    intros f [<-|[<-|[]]]; (split; [reflexivity|]); intros v [<-|[<-|[]]].
    - exists 1. split; [left; reflexivity|lra].
    - exists 1. split; [right; left; reflexivity|lra].
    - exists (-3). split; [right; right; left; reflexivity|lra].
    - exists 1. split; [left; reflexivity|lra]. }
  assert (K : total_twice_kinetic masses velocity = 84) by (cbn; ring). split; [exact M|]. split; [exact K|].
  exists (fun data _ => sqrt (sumsq data / (3 * INR (length data)))). assert (HF : forall (data : list R) (guess : R), data <> [] -> (forall x, In x data -> 0 < x) -> most_likely data (sqrt (sumsq data / (3 * INR (length data))))) by (intros; apply most_likely_iff; auto).
  split; [exact HF|]. assert (E := C113_kinetic_temperature _ masses velocity HF M). rewrite K in E. cbn [velocity masses length INR] in E. unfold k_B in *.
  match goal with |- ?t = _ => set (T := t) in * end. lra.
Qed.
