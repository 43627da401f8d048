From Verif Require Import CorrelationModel CorrelationSpec.
From Coq Require Import Lra.
Open Scope R_scope.

Lemma vread_ok v k : (Z.of_nat k < Z.of_nat (length v))%Z -> vread v (Z.of_nat k) = Some (vel v k).
Proof.
  intros H. unfold vread, vel. replace (0 <=? Z.of_nat k)%Z with true by (symmetry; apply Z.leb_le; lia).
  rewrite Nat2Z.id. apply nth_error_nth'. lia.
Qed.
Lemma sum_n_ext n f g : (forall k, (k < n)%nat -> f k = g k) -> sum_n n f = sum_n n g.
Proof.
  induction n as [|n IH]; intros H; simpl; [reflexivity|]. rewrite IH by (intros; apply H; lia). rewrite H by lia. reflexivity.
Qed.
Lemma sum_n_scal n c f : sum_n n (fun k => c * f k) = c * sum_n n f.
Proof. induction n as [|n IH]; simpl; [ring|rewrite IH; ring]. Qed.

(** contribution of origin j and lag i to the real part *)
Definition lag_term (method : bool) (v : list C) (freq dt : R) (inc i j : nat) : R :=
  if method then 2 * (exp (freq * (INR i * dt)) * Re (Cmult (Cmult (Cconj (vel v j)) (vel v (j + i))) (phase 1)))
  else exp (freq * (INR i * dt)) * Re (Cmult (Cmult (Cconj (vel v j)) (vel v (j + i))) (phase 1)) +
      exp (freq * (INR (i + inc) * dt)) * Re (Cmult (Cmult (Cconj (vel v j)) (vel v (j + i + inc))) (phase 1)) +
      exp (freq * INR (i + inc)) * Re (Cmult (Cmult (Cconj (vel v j)) (vel v (j + i))) (phase 1)).
(** one inner step in range never leaves the buffer *)
Lemma corr_inner_ok v freq dt inc method i j acc : (1 <= inc)%nat -> (j + i + inc < length v)%nat ->
  exists c, corr_inner v freq dt (Z.of_nat inc) method (Z.of_nat i) (Z.of_nat j) acc = Some c /\
  Re c = Re acc + lag_term method v freq dt inc i j.
Proof.
  intros Hinc H. unfold corr_inner, corr_term, lag_term.
  rewrite <- Nat2Z.inj_add. rewrite !vread_ok by lia. simpl bind.
  destruct method.
  - eexists. split; [reflexivity|]. rewrite <- !INR_IZR_INZ.
    unfold cexp, Cbuild, phase, Cplus, Cmult, Re; simpl. ring.
  - rewrite <- !Nat2Z.inj_add. rewrite !vread_ok by lia. simpl bind. eexists. split; [reflexivity|].
    rewrite <- !INR_IZR_INZ. unfold cexp, Cbuild, phase, Cplus, Cmult, Re; simpl. ring.
Qed.

Lemma inner_loop_ok v freq dt inc method i acc : (1 <= inc)%nat ->
  exists c, for_ 0 (Z.to_nat (Z.of_nat (length v) - Z.of_nat i - Z.of_nat inc))
     (fun j => corr_inner v freq dt (Z.of_nat inc) method (Z.of_nat i) (Z.of_nat j)) acc = Some c /\
  Re c = Re acc + sum_n (length v - i - inc) (lag_term method v freq dt inc i).
Proof.
  intros Hinc. replace (Z.to_nat (Z.of_nat (length v) - Z.of_nat i - Z.of_nat inc)) with (length v - i - inc)%nat by lia.
  destruct (for_rule (fun j c => Re c = Re acc + sum_n j (lag_term method v freq dt inc i))
    (fun j => corr_inner v freq dt (Z.of_nat inc) method (Z.of_nat i) (Z.of_nat j)) (length v - i - inc) 0 acc) as [c [E I]].
  - simpl. ring.
  - intros j s Hj I.
    destruct (corr_inner_ok v freq dt inc method i j s Hinc ltac:(lia)) as [c [E F]].
    exists c. split; [exact E|]. rewrite F, I. cbn [sum_n]. ring.
  - exists c. split; [exact E|exact I].
Qed.

Lemma n_lags_lt N inc q : (1 <= inc)%nat -> ((q < n_lags N inc) <-> (q * inc < N))%nat.
Proof.
  intros H. unfold n_lags. split; intros L.
  - assert (A := Nat.mul_div_le (N + inc - 1) inc ltac:(lia)). nia.
  - apply Nat.div_le_lower_bound; [lia|]. nia.
Qed.

Lemma outer_ok v freq dt inc method : (1 <= inc)%nat -> forall fuel q acc, (length v - q * inc < fuel)%nat -> (q <= n_lags (length v) inc)%nat ->
  exists c, corr_outer fuel v freq dt (Z.of_nat inc) method (Z.of_nat (q * inc)) acc = Finished c /\
  Re c = Re acc + (sum_n (n_lags (length v) inc) (fun q => sum_n (length v - q * inc - inc) (lag_term method v freq dt inc (q * inc)))
     - sum_n q (fun q => sum_n (length v - q * inc - inc) (lag_term method v freq dt inc (q * inc)))).
Proof.
  intros Hinc. set (T := fun q => sum_n (length v - q * inc - inc) (lag_term method v freq dt inc (q * inc))).
  induction fuel as [|fuel IH]; intros q acc Hf Hq; [lia|]. cbn [corr_outer].
  destruct (Z.ltb_spec (Z.of_nat (q * inc)) (Z.of_nat (length v))) as [L|L].
  - destruct (inner_loop_ok v freq dt inc method (q * inc) acc Hinc) as [c1 [E1 F1]]. rewrite E1.
    rewrite <- Nat2Z.inj_add. replace (q * inc + inc)%nat with (S q * inc)%nat by lia.
    assert (Hq' : (q < n_lags (length v) inc)%nat) by (apply n_lags_lt; lia).
    destruct (IH (S q) c1) as [c [E F]]; [nia|lia|].
    exists c. split; [exact E|]. rewrite F, F1. cbn [sum_n]. fold (T q). ring.
  - exists acc. split; [reflexivity|].
    assert (E : q = n_lags (length v) inc).
    { apply Nat.le_antisymm; [assumption|]. apply Nat.nlt_ge. intros D. apply n_lags_lt in D; lia. }
    subst q. ring.
Qed.

Lemma evaluate_sum v freq dt inc method fuel : (1 <= inc)%nat -> (inc <= length v)%nat -> (length v < fuel)%nat ->
  EvaluateCorrelation fuel freq v dt (Z.of_nat inc) method = Number (
    sum_n (n_lags (length v) inc) (fun q => sum_n (length v - q * inc - inc) (lag_term method v freq dt inc (q * inc)))
    * dt / INR (length v / inc)).
Proof.
  intros Hinc Hl Hf. unfold EvaluateCorrelation.
  destruct (outer_ok v freq dt inc method Hinc fuel 0 (RtoC 0) ltac:(lia) ltac:(lia)) as [c [E F]].
  change (Z.of_nat (0 * inc)) with 0%Z in E. rewrite E. rewrite Z.quot_div_nonneg by lia. rewrite <- Nat2Z.inj_div.
  assert (1 <= length v / inc)%nat by (apply Nat.div_le_lower_bound; lia).
  replace (Z.of_nat (length v / inc) =? 0)%Z with false by (symmetry; apply Z.eqb_neq; lia).
  rewrite F. rewrite <- INR_IZR_INZ. simpl (sum_n 0 _). simpl (Re (RtoC 0)).
  f_equal. f_equal. ring.
Qed.
Lemma evaluate_total v freq dt inc method fuel : (1 <= inc)%nat -> (length v < fuel)%nat ->
  ((inc <= length v)%nat -> exists x, EvaluateCorrelation fuel freq v dt (Z.of_nat inc) method = Number x) /\
  ((length v < inc)%nat -> EvaluateCorrelation fuel freq v dt (Z.of_nat inc) method = NotANumber).
Proof.
  intros Hinc Hf. split; intros H.
  - eexists. apply evaluate_sum; assumption.
  - unfold EvaluateCorrelation.
    destruct (outer_ok v freq dt inc method Hinc fuel 0 (RtoC 0) ltac:(lia) ltac:(lia)) as [c [E _]].
    change (Z.of_nat (0 * inc)) with 0%Z in E. rewrite E. rewrite Z.quot_div_nonneg by lia. rewrite <- Nat2Z.inj_div.
    rewrite Nat.div_small by assumption. reflexivity.
Qed.
Lemma evaluate_value v freq dt inc fuel : (1 <= inc)%nat -> (inc <= length v)%nat -> (length v < fuel)%nat ->
  EvaluateCorrelation fuel freq v dt (Z.of_nat inc) true = Number (actual_correlation freq v dt inc).
Proof.
  intros Hinc Hl Hf. rewrite evaluate_sum by assumption. unfold actual_correlation. cbv zeta. f_equal. f_equal. f_equal.
  rewrite <- sum_n_scal. apply sum_n_ext. intros q _. rewrite <- sum_n_scal. apply sum_n_ext. intros j _. reflexivity.
Qed.
Lemma evaluate_trapezoid v freq dt inc fuel : (1 <= inc)%nat -> (inc <= length v)%nat -> (length v < fuel)%nat ->
  EvaluateCorrelation fuel freq v dt (Z.of_nat inc) false = Number (actual_trapezoid freq v dt inc).
Proof. intros Hinc Hl Hf. rewrite evaluate_sum by assumption. reflexivity. Qed.

(** increment 0: never terminates; negative: leaves the buffer *)
Lemma zero_increment v freq dt method fuel acc : v <> [] -> corr_outer fuel v freq dt 0 method 0 acc = Running \/ corr_outer fuel v freq dt 0 method 0 acc = Undefined.
Proof.
  intros Hv. revert acc. induction fuel as [|f IH]; intros acc; [left; reflexivity|]. cbn [corr_outer].
  replace (0 <? Z.of_nat (length v))%Z with true by (symmetry; apply Z.ltb_lt; destruct v; [congruence|simpl; lia]).
  destruct (for_ _ _ _ _) as [a|]; [apply IH|right; reflexivity].
Qed.
Lemma zero_increment_evaluate v freq dt method fuel : v <> [] ->
  forall x, EvaluateCorrelation fuel freq v dt 0 method <> Number x /\ EvaluateCorrelation fuel freq v dt 0 method <> NotANumber.
Proof.
  intros Hv x. unfold EvaluateCorrelation. destruct (zero_increment v freq dt method fuel (RtoC 0) Hv) as [-> | ->]; split; discriminate.
Qed.
Lemma negative_increment v freq dt inc method fuel : v <> [] -> (inc < 0)%Z -> (1 <= fuel)%nat ->
  EvaluateCorrelation fuel freq v dt inc method = UB.
Proof.
  intros Hv Hinc Hf. unfold EvaluateCorrelation. destruct fuel as [|f]; [lia|]. cbn [corr_outer].
  replace (0 <? Z.of_nat (length v))%Z with true by (symmetry; apply Z.ltb_lt; destruct v; [congruence|simpl; lia]).
  rewrite for_none; [reflexivity|]. exists (length v). split; [lia|]. intros s.
  unfold corr_inner, corr_term, vread. rewrite Nat2Z.id.
  replace (0 <=? Z.of_nat (length v))%Z with true by (symmetry; apply Z.leb_le; lia).
  replace (nth_error v (length v)) with (@None C) by (symmetry; apply nth_error_None; lia). reflexivity.
Qed.

(** C17: unbounded instead of bounded *)
Definition ones : list C := [RtoC 1; RtoC 1; RtoC 1].
Lemma cos1_pos : 0 < cos 1.
Proof. apply cos_gt_0; pose proof PI2_1; lra. Qed.
Lemma actual_ones omega : actual_correlation omega ones 1 1 = 2 * (2 + exp omega) * cos 1 / 3.
Proof.
  unfold actual_correlation, ones. change (n_lags _ _) with 3%nat. change (length [RtoC 1; RtoC 1; RtoC 1] / 1)%nat with 3%nat.
  simpl. unfold vel; simpl. unfold Re, Cmult, Cconj, phase; simpl.
  replace (omega * (0 * 1)) with 0 by ring. rewrite exp_0. replace (omega * (1 * 1)) with omega by ring. field.
Qed.
Lemma documented_ones omega : documented_correlation omega ones 1 1 = (2 + cos omega) / 3.
Proof.
  unfold documented_correlation, ones. change (n_lags _ _) with 3%nat. change (length [RtoC 1; RtoC 1; RtoC 1] / 1)%nat with 3%nat.
  simpl. unfold vel; simpl. unfold Re, Cmult, Cconj, phase; simpl.
  replace (omega * (0 * 1)) with 0 by ring. rewrite cos_0. replace (omega * (1 * 1)) with omega by ring. field.
Qed.
Lemma unbounded B : exists omega, B < actual_correlation omega ones 1 1 /\ documented_correlation omega ones 1 1 <= 1.
Proof.
  pose proof cos1_pos as Hc.
  exists (Rmax 0 (3 * B / (2 * cos 1))). set (w := Rmax _ _). rewrite actual_ones, documented_ones.
  split; [|pose proof (COS_bound w); lra].
  assert (W0 : 0 <= w) by apply Rmax_l. assert (W1 : 3 * B / (2 * cos 1) <= w) by apply Rmax_r.
  assert (E : 1 + w <= exp w).
  { destruct (Req_dec w 0) as [->|N]; [rewrite exp_0; lra|]. left. apply exp_ineq1. lra. }
  apply (Rmult_le_compat_r (2 * cos 1)) in W1; [|lra].
  replace (3 * B / (2 * cos 1) * (2 * cos 1)) with (3 * B) in W1 by (field; lra).
  assert ((2 + exp w) * cos 1 >= (3 + w) * cos 1) by (apply Rle_ge, Rmult_le_compat_r; lra). nra.
Qed.
(** at omega = 0 real data come out multiplied by 2 cos 1 *)
Lemma zero_frequency v dt inc : (forall k, snd (vel v k) = 0) -> (1 <= inc)%nat ->
  actual_correlation 0 v dt inc = 2 * cos 1 * documented_correlation 0 v dt inc.
Proof.
  intros Hr Hi. unfold actual_correlation, documented_correlation. cbv zeta.
  rewrite (sum_n_ext _ _ (fun q => cos 1 * sum_n (length v - q * inc - inc) (fun j =>
     Re (Cmult (Cmult (Cconj (vel v j)) (vel v (j + q * inc))) (phase (0 * (INR (q * inc) * dt))))))).
  - rewrite sum_n_scal. unfold Rdiv. ring.
  - intros q _. rewrite <- sum_n_scal. apply sum_n_ext. intros j _.
    rewrite !Rmult_0_l, exp_0. unfold phase, Re, Cmult, Cconj; simpl. rewrite !Hr, cos_0, sin_0. ring.
Qed.
(** trapezoid: three samples 1, 1, 1 *)
Lemma actual_trap_ones omega : actual_trapezoid omega ones 1 1 = (2 + 5 * exp omega + 2 * exp (omega * 2)) * cos 1 / 3.
Proof.
  unfold actual_trapezoid, ones. change (n_lags _ _) with 3%nat. change (length [RtoC 1; RtoC 1; RtoC 1] / 1)%nat with 3%nat.
  simpl. unfold vel; simpl. unfold Re, Cmult, Cconj, phase; simpl.
  replace (omega * (0 * 1)) with 0 by ring. rewrite exp_0. replace (omega * (1 * 1)) with omega by ring.
  replace (omega * 1) with omega by ring. replace (omega * ((1 + 1) * 1)) with (omega * 2) by ring. replace (omega * (1 + 1)) with (omega * 2) by ring. field.
Qed.
Lemma documented_trap_ones omega : documented_trapezoid omega ones 1 1 <= 1.
Proof.
  unfold documented_trapezoid, ones. change (n_lags _ _) with 3%nat. change (length [RtoC 1; RtoC 1; RtoC 1] / 1)%nat with 3%nat.
  simpl. unfold vel; simpl. unfold Re, Cmult, Cconj, phase; simpl.
  replace (omega * (0 * 1)) with 0 by ring. rewrite cos_0. replace (omega * (1 * 1)) with omega by ring.
  replace (omega * ((1 + 1) * 1)) with (omega * 2) by ring.
  pose proof (COS_bound omega). pose proof (COS_bound (omega * 2)). lra.
Qed.
Lemma unbounded_trap B : exists omega, B < actual_trapezoid omega ones 1 1.
Proof.
  pose proof cos1_pos as Hc.
  exists (Rmax 0 (3 * B / (5 * cos 1))). set (w := Rmax _ _). rewrite actual_trap_ones.
  assert (W0 : 0 <= w) by apply Rmax_l. assert (W1 : 3 * B / (5 * cos 1) <= w) by apply Rmax_r.
  assert (E : 1 + w <= exp w).
  { destruct (Req_dec w 0) as [->|N]; [rewrite exp_0; lra|]. left. apply exp_ineq1. lra. }
  pose proof (exp_pos (w * 2)) as E2.
  apply (Rmult_le_compat_r (5 * cos 1)) in W1; [|lra].
  replace (3 * B / (5 * cos 1) * (5 * cos 1)) with (3 * B) in W1 by (field; lra).
  assert ((2 + 5 * exp w + 2 * exp (w * 2)) * cos 1 >= (7 + 5 * w) * cos 1) by (apply Rle_ge, Rmult_le_compat_r; lra). nra.
Qed.
(** every entry of the returned array *)
Lemma spectrum_value freqs v dt inc fuel method i f : (1 <= inc)%nat -> (inc <= length v)%nat -> (length v < fuel)%nat ->
  nth_error freqs i = Some f ->
  nth_error (correlation_par fuel freqs v dt (Z.of_nat inc) method) i =
  Some (Number (if method then actual_correlation (2 * PI * f) v dt inc else actual_trapezoid (2 * PI * f) v dt inc)).
Proof.
  intros Hi Hl Hf E. unfold correlation_par. rewrite (map_nth_error _ _ _ E). f_equal.
  replace (f * 2 * PI) with (2 * PI * f) by ring. destruct method; [apply evaluate_value|apply evaluate_trapezoid]; assumption.
Qed.
