(** C17, strengthened refutation: not only for one signal but for every signal with a correlation left at the last correlation time, the value returned by the
    direct method (c/correlation.c:153-178, rectangular rule) grows beyond every bound with the frequency, while the documented value is bounded. *)
From Verif Require Import CorrelationModel CorrelationSpec CorrelationProofs.
From Coq Require Import Lra Lia.
From Coquelicot Require Import Complex.
Open Scope R_scope.

(** ---------- specification ---------- *)
(** correlation of the samples i steps apart, over the origins the routine uses *)
Definition correlation_at (v : list C) (inc i : nat) : C :=
  (sum_n (length v - i - inc) (fun j => Re (Cmult (Cconj (vel v j)) (vel v (j + i)))), sum_n (length v - i - inc) (fun j => Im (Cmult (Cconj (vel v j)) (vel v (j + i))))).

(** ---------- proofs ---------- *)
Lemma sum_scal c f n : sum_n n (fun j => c * f j) = c * sum_n n f. Proof. induction n as [|n IH]; cbn [sum_n]; [ring|]. rewrite IH. ring. Qed.
Lemma sum_plus f g n : sum_n n (fun j => f j + g j) = sum_n n f + sum_n n g. Proof. induction n as [|n IH]; cbn [sum_n]; [ring|]. rewrite IH. ring. Qed.
Lemma sum_ext f g n : (forall j, (j < n)%nat -> f j = g j) -> sum_n n f = sum_n n g.
Proof. induction n as [|n IH]; cbn [sum_n]; intros H; [reflexivity|]. rewrite IH, H by (try lia; intros; apply H; lia). reflexivity. Qed.
Lemma sum_zero n : sum_n n (fun _ => 0) = 0. Proof. induction n as [|n IH]; cbn [sum_n]; [reflexivity|]. rewrite IH. ring. Qed.
Lemma sum_drop f k n : (forall j, (k <= j < k + n)%nat -> f j = 0) -> sum_n (k + n) f = sum_n k f.
Proof. induction n as [|n IH]; intros H; [rewrite Nat.add_0_r; reflexivity|]. rewrite Nat.add_succ_r. cbn [sum_n]. rewrite IH, H by (try lia; intros; apply H; lia). ring. Qed.
Lemma sum_abs f n : Rabs (sum_n n f) <= sum_n n (fun j => Rabs (f j)).
Proof. induction n as [|n IH]; cbn [sum_n]; [rewrite Rabs_R0; lra|]. assert (T := Rabs_triang (sum_n n f) (f n)). lra. Qed.
Lemma sum_le f g n : (forall j, (j < n)%nat -> f j <= g j) -> sum_n n f <= sum_n n g.
Proof. induction n as [|n IH]; cbn [sum_n]; intros H; [lra|]. assert (A := IH (fun j Hj => H j (Nat.lt_lt_succ_r _ _ Hj))). assert (B := H n (Nat.lt_succ_diag_r n)). lra. Qed.
(** a polynomial with a leading coefficient is unbounded *)
Lemma poly_unbounded a Q B : a (S Q) <> 0 -> exists x, 1 <= x /\ B < Rabs (sum_n (S (S Q)) (fun q => a q * x ^ q)).
Proof.
  intros Ha. set (S0 := sum_n (S Q) (fun q => Rabs (a q))). set (L := Rabs (a (S Q))). assert (HL : 0 < L) by (apply Rabs_pos_lt; exact Ha).
  assert (HS : 0 <= S0). { unfold S0. rewrite <- (sum_zero (S Q)). apply sum_le. intros; apply Rabs_pos. }
  set (x := 1 + (S0 + Rabs B + 1) / L). exists x. assert (HB := Rabs_pos B).
  assert (Hq : 0 < (S0 + Rabs B + 1) / L) by (apply Rdiv_lt_0_compat; lra). assert (Hx : 1 <= x) by (unfold x; lra). split; [exact Hx|].
  assert (Hlx : S0 + Rabs B + 1 <= L * x). { unfold x. replace (L * (1 + (S0 + Rabs B + 1) / L)) with (L + (S0 + Rabs B + 1)) by (field; lra). lra. }
  assert (P : 1 <= x ^ Q) by (apply pow_R1_Rle; exact Hx).
  assert (T : Rabs (sum_n (S Q) (fun q => a q * x ^ q)) <= S0 * x ^ Q).
  { eapply Rle_trans; [apply sum_abs|]. unfold S0. rewrite Rmult_comm, <- sum_scal. apply sum_le. intros q Hlt. rewrite Rabs_mult, (Rabs_pos_eq (x ^ q)) by (apply pow_le; lra).
    rewrite Rmult_comm. apply Rmult_le_compat_r; [apply Rabs_pos|]. apply Rle_pow; [exact Hx|lia]. }
  change (sum_n (S (S Q)) (fun q => a q * x ^ q)) with (sum_n (S Q) (fun q => a q * x ^ q) + a (S Q) * x ^ S Q).
  assert (U : Rabs (a (S Q) * x ^ S Q) = L * x * x ^ Q) by (rewrite Rabs_mult, (Rabs_pos_eq (x ^ S Q)) by (apply pow_le; lra); unfold L; cbn [pow]; ring).
  assert (V := Rabs_triang_inv (a (S Q) * x ^ S Q) (- sum_n (S Q) (fun q => a q * x ^ q))). rewrite Rabs_Ropp in V.
  replace (a (S Q) * x ^ S Q - - sum_n (S Q) (fun q => a q * x ^ q)) with (sum_n (S Q) (fun q => a q * x ^ q) + a (S Q) * x ^ S Q) in V by ring.
  assert (B1 := Rle_abs B). nra.
Qed.
Lemma lag_coefficient v inc i y : sum_n (length v - i - inc) (fun j => y * Re (Cmult (Cmult (Cconj (vel v j)) (vel v (j + i))) (phase 1))) = y * Re (Cmult (correlation_at v inc i) (phase 1)).
Proof.
  rewrite sum_scal. f_equal. unfold correlation_at.
  set (n := (length v - i - inc)%nat). set (z j := Cmult (Cconj (vel v j)) (vel v (j + i))). change (fun j => Re (Cmult (Cconj (vel v j)) (vel v (j + i)))) with (fun j => Re (z j)). change (fun j => Im (Cmult (Cconj (vel v j)) (vel v (j + i)))) with (fun j => Im (z j)).
  transitivity (sum_n n (fun j => cos 1 * Re (z j) + - sin 1 * Im (z j))).
  - apply sum_ext. intros j _. fold (z j). destruct (z j) as [p q]. cbn. ring.
  - rewrite sum_plus, !sum_scal. set (p := sum_n n (fun j => Re (z j))). set (q := sum_n n (fun j => Im (z j))). cbn. ring.
Qed.
Theorem C17_every_signal_refuted : forall v dt inc fuel Q, 0 < dt -> (1 <= inc)%nat -> (length v < fuel)%nat ->
  (1 <= Q)%nat -> (Q * inc + inc < length v <= S Q * inc + inc)%nat ->
  Re (Cmult (correlation_at v inc (Q * inc)) (phase 1)) <> 0 ->
  forall B, exists omega x, 0 <= omega /\ EvaluateCorrelation fuel omega v dt (Z.of_nat inc) true = Number x /\ B < Rabs x /\
  Rabs (documented_correlation omega v dt inc) <= sum_n (n_lags (length v) inc) (fun q => sum_n (length v - q * inc - inc) (fun j => Cmod (vel v j) * Cmod (vel v (j + q * inc)))) * dt / INR (length v / inc).
Proof.
  intros v dt inc fuel Q Hdt Hi Hf HQ HN HK B. destruct Q as [|Q]; [lia|].
  set (N := length v) in *. assert (HD : (0 < N / inc)%nat) by (apply Nat.div_str_pos; lia). assert (HDR : 0 < INR (N / inc)) by (apply lt_0_INR; exact HD).
  set (g := dt / INR (N / inc)). assert (Hg : 0 < g) by (apply Rdiv_lt_0_compat; assumption).
  set (a q := 2 * g * Re (Cmult (correlation_at v inc (q * inc)) (phase 1))).
  assert (Ha : a (S Q) <> 0) by (unfold a; apply Rmult_integral_contrapositive_currified; [lra|exact HK]).
  destruct (poly_unbounded a Q B Ha) as [x [Hx HB]]. set (omega := ln x / (INR inc * dt)).
  assert (HiR : 0 < INR inc) by (apply lt_0_INR; lia). assert (Hid : 0 < INR inc * dt) by (apply Rmult_lt_0_compat; assumption).
  exists omega, (actual_correlation omega v dt inc). split.
  { apply Rmult_le_pos; [|left; apply Rinv_0_lt_compat; exact Hid]. rewrite <- ln_1. destruct Hx as [Hx|<-]; [left; apply ln_increasing; lra|right; reflexivity]. }
  split; [apply evaluate_value; unfold N in *; lia|]. split.
  - assert (Ex : forall q, exp (omega * (INR (q * inc) * dt)) = x ^ q).
    { intros q. replace (omega * (INR (q * inc) * dt)) with (INR q * ln x) by (unfold omega; rewrite mult_INR; field; lra).
      rewrite <- (exp_ln (x ^ q)) by (apply pow_lt; lra). rewrite ln_pow by lra. reflexivity. }
    assert (Ev : actual_correlation omega v dt inc = sum_n (S (S Q)) (fun q => a q * x ^ q)).
    { unfold actual_correlation. fold N. cbv zeta.
      assert (EL : exists r, n_lags N inc = (S (S Q) + r)%nat).
      { exists (n_lags N inc - S (S Q))%nat. assert (S (S Q) <= n_lags N inc)%nat; [|lia]. unfold n_lags. apply Nat.div_le_lower_bound; nia. }
      destruct EL as [r ->]. rewrite sum_drop.
      2:{ intros q Hq. replace (N - q * inc - inc)%nat with 0%nat by nia. reflexivity. }
      rewrite (sum_ext _ (fun q => x ^ q * Re (Cmult (correlation_at v inc (q * inc)) (phase 1)))) by (intros q _; rewrite <- Ex; unfold N; apply lag_coefficient).
      unfold Rdiv. replace (2 * sum_n (S (S Q)) (fun q => x ^ q * Re (Cmult (correlation_at v inc (q * inc)) (phase 1))) * dt * / INR (N / inc))
        with ((2 * g) * sum_n (S (S Q)) (fun q => x ^ q * Re (Cmult (correlation_at v inc (q * inc)) (phase 1)))) by (unfold g, Rdiv; ring).
      rewrite <- sum_scal. apply sum_ext. intros q _. unfold a. ring. }
    rewrite Ev. exact HB.
  - unfold documented_correlation. fold N. unfold Rdiv. rewrite !Rabs_mult, (Rabs_pos_eq dt), (Rabs_pos_eq (/ INR (N / inc))) by (try lra; left; apply Rinv_0_lt_compat; exact HDR).
    apply Rmult_le_compat_r; [left; apply Rinv_0_lt_compat; exact HDR|]. apply Rmult_le_compat_r; [lra|].
    eapply Rle_trans; [apply sum_abs|]. apply sum_le. intros q _. cbv zeta. eapply Rle_trans; [apply sum_abs|]. apply sum_le. intros j _.
    eapply Rle_trans; [eapply Rle_trans; [apply Rmax_l|apply Rmax_Cmod]|].
    rewrite !Cmod_mult. replace (Cmod (phase (omega * (INR (q * inc) * dt)))) with 1.
    + right. rewrite Rmult_1_r. f_equal. unfold Cmod, Cconj. cbn [fst snd]. f_equal. ring.
    + unfold Cmod, phase. cbn [fst snd]. symmetry. rewrite <- sqrt_1. f_equal. assert (T := sin2_cos2 (omega * (INR (q * inc) * dt))). unfold Rsqr in T. lra.
Qed.
Print Assumptions C17_every_signal_refuted.
Example C17_growth_nonvacuous : let v := [RtoC 1; RtoC 1; RtoC 1; RtoC 1] in (2 * 1 + 1 < length v <= 3 * 1 + 1)%nat /\ Re (Cmult (correlation_at v 1 (2 * 1)) (phase 1)) <> 0.
Proof.
  split; [cbn; lia|]. unfold correlation_at. cbn. assert (P := cos1_pos). lra.
Qed.
