(** The Burg spectrum integrates to the mean square of the series. *)
From Verif Require Export MemIntegral.
From Coquelicot Require Import Coquelicot.
From Coq Require Import Reals Lra Lia Psatz.
From Coquelicot Require Import Complex.
Open Scope R_scope.

Definition polar (r t : R) : C := (r * cos t, r * sin t).
Lemma polar_mod r t : Cmod (polar r t) = Rabs r.
Proof.
  unfold polar, Cmod. cbn [fst snd]. replace ((r * cos t) ^ 2 + (r * sin t) ^ 2) with (Rsqr r).
  - apply sqrt_Rsqr_abs.
  - pose proof (sin2_cos2 t) as H. unfold Rsqr in *. nra.
Qed.
Lemma Cpow_polar r t i : Cpow (polar r t) i = (r ^ i * cos (INR i * t), r ^ i * sin (INR i * t)).
Proof.
  induction i as [|i IH].
  - cbn [Cpow pow INR]. rewrite Rmult_0_l, cos_0, sin_0. unfold RtoC. f_equal; ring.
  - cbn [Cpow]. rewrite IH, S_INR. replace ((INR i + 1) * t) with (INR i * t + t) by ring. rewrite cos_plus, sin_plus. unfold polar, Cmult. cbn [fst snd pow]. f_equal; ring.
Qed.
Definition pc (a : nat -> R) (i : nat) : R := match i with O => 1 | _ => - a i end.
Lemma filter_polar a M r t : error_filter a M (polar r t) = (px (pc a) (S M) r t, py (pc a) (S M) r t).
Proof.
  unfold error_filter, px, py. cbn [sum_from pc pow INR]. rewrite Rmult_0_l, cos_0, sin_0.
  assert (E : forall n k, (1 <= k)%nat -> csum_from k n (fun i => Cmult (RtoC (a i)) (Cpow (polar r t) i)) =
    (- sum_from k n (fun i => pc a i * (r ^ i * cos (INR i * t))), - sum_from k n (fun i => pc a i * (r ^ i * sin (INR i * t))))).
  { induction n as [|n IH]; intros k Hk; cbn [csum_from sum_from]; [unfold RtoC; f_equal; ring|].
    rewrite IH by lia. rewrite Cpow_polar. destruct k as [|k]; [lia|]. cbn [pc]. unfold Cplus, Cmult, RtoC; cbn [fst snd]. f_equal; ring. }
  rewrite E by lia. unfold Cminus, Cplus, Copp, RtoC; cbn [fst snd]. f_equal; ring.
Qed.

(** ---------- the filter has no zero in the closed unit disc ---------- *)
Definition back_filter (a : nat -> R) (k : nat) (z : C) : C := Cminus (Cpow z k) (csum_from 1 k (fun i => Cmult (RtoC (a i)) (Cpow z (k - i)))).
Lemma forward_step m r a z : error_filter (new_a (S m) r a) (S m) z = Cminus (error_filter a m z) (Cmult (RtoC r) (Cmult z (back_filter a m z))).
Proof.
  unfold error_filter, back_filter. rewrite csum_from_S. replace (1 + m)%nat with (S m) by lia. rewrite new_a_same.
  rewrite (csum_from_ext _ (fun i => Cminus (Cmult (RtoC (a i)) (Cpow z i)) (Cmult (RtoC r) (Cmult (RtoC (a (S m - i)%nat)) (Cpow z i)))) m 1).
  2:{ intros j Hj. rewrite new_a_lt by lia. rewrite RtoC_minus, RtoC_mult. ring. }
  rewrite csum_from_minus, csum_from_scal, (csum_from_rev (fun i => Cmult (RtoC (a (S m - i)%nat)) (Cpow z i)) m).
  rewrite (csum_from_ext (fun i => Cmult (RtoC (a (S m - (S m - i))%nat)) (Cpow z (S m - i))) (fun i => Cmult z (Cmult (RtoC (a i)) (Cpow z (m - i)))) m 1).
  2:{ intros j Hj. replace (S m - (S m - j))%nat with j by lia. replace (S m - j)%nat with (S (m - j)) by lia. cbn [Cpow]. ring. }
  rewrite csum_from_scal. cbn [Cpow]. ring.
Qed.
Lemma backward_step m r a z : back_filter (new_a (S m) r a) (S m) z = Cminus (Cmult z (back_filter a m z)) (Cmult (RtoC r) (error_filter a m z)).
Proof.
  unfold error_filter, back_filter. rewrite csum_from_S. replace (1 + m)%nat with (S m) by lia. rewrite new_a_same. rewrite Nat.sub_diag. cbn [Cpow].
  rewrite (csum_from_ext _ (fun i => Cminus (Cmult z (Cmult (RtoC (a i)) (Cpow z (m - i)))) (Cmult (RtoC r) (Cmult (RtoC (a (S m - i)%nat)) (Cpow z (S m - i))))) m 1).
  2:{ intros j Hj. rewrite new_a_lt by lia. rewrite RtoC_minus, RtoC_mult. replace (S m - j)%nat with (S (m - j)) by lia. cbn [Cpow]. ring. }
  rewrite csum_from_minus, !csum_from_scal.
  rewrite <- (csum_from_rev (fun i => Cmult (RtoC (a i)) (Cpow z i)) m). ring.
Qed.
Lemma mod_gap A zB r : Cmod (Cminus A (Cmult (RtoC r) zB)) ^ 2 - Cmod (Cminus zB (Cmult (RtoC r) A)) ^ 2 = (1 - r ^ 2) * (Cmod A ^ 2 - Cmod zB ^ 2).
Proof. rewrite <- !Cmod_sqr. destruct A, zB. unfold Cminus, Cplus, Copp, Cmult, Cconj, RtoC, Re; cbn [fst snd]. ring. Qed.

Fixpoint dual (x : nat -> R) (N M : nat) : nat -> R :=
  match M with O => fun _ => 0 | S m => new_a (S m) (- reflection N (S m) (burg x N m)) (dual x N m) end.
Lemma burg_alive x N m : b_dead (burg x N (S m)) = false ->
  b_dead (burg x N m) = false /\ (forall i, b_a (burg x N (S m)) i = new_a (S m) (reflection N (S m) (burg x N m)) (b_a (burg x N m)) i) /\
  b_msd (burg x N (S m)) = b_msd (burg x N m) * (1 - reflection N (S m) (burg x N m) ^ 2).
Proof.
  intros D. cbn [burg] in *. unfold burg_step in *. destruct (b_dead (burg x N m)) eqn:Ed; [congruence|].
  destruct (Rlt_dec _ _) as [L|L]; [discriminate|]. cbv zeta. cbn [b_a b_msd]. repeat split; reflexivity.
Qed.
Lemma disc x N M : b_dead (burg x N M) = false -> strict x N M ->
  exists c, 0 < c /\ forall z, Cmod z <= 1 -> c <= Cmod (error_filter (b_a (burg x N M)) M z) /\
  Cmod (back_filter (b_a (burg x N M)) M z) <= Cmod (error_filter (b_a (burg x N M)) M z).
Proof.
  induction M as [|m IH]; intros D S.
  - exists 1. split; [lra|]. intros z _. unfold error_filter, back_filter. cbn [csum_from Cpow]. replace (Cminus (RtoC 1) (RtoC 0)) with (RtoC 1) by ring. rewrite Cmod_1. lra.
  - destruct (burg_alive _ _ _ D) as [D' [Ea _]]. destruct (IH D' ltac:(intros k Hk; apply S; lia)) as [c [Hc P]].
    assert (Sr := S (Datatypes.S m) ltac:(lia)). replace (Datatypes.S m - 1)%nat with m in Sr by lia. set (r := reflection N (Datatypes.S m) (burg x N m)) in *.
    exists (c * (1 - Rabs r)). split; [apply Rmult_lt_0_compat; lra|]. intros z Hz. destruct (P z Hz) as [P1 P2].
    rewrite (error_filter_ext _ (new_a (Datatypes.S m) r (b_a (burg x N m)))) by (intros; apply Ea).
    replace (back_filter (b_a (burg x N (Datatypes.S m))) (Datatypes.S m) z) with (back_filter (new_a (Datatypes.S m) r (b_a (burg x N m))) (Datatypes.S m) z).
    2:{ unfold back_filter. f_equal. apply csum_from_ext. intros j _. rewrite Ea. reflexivity. }
    rewrite forward_step, backward_step. set (A := error_filter (b_a (burg x N m)) m z) in *. set (B := back_filter (b_a (burg x N m)) m z) in *.
    assert (ZB : Cmod (Cmult z B) <= Cmod A). { rewrite Cmod_mult. pose proof (Cmod_ge_0 B). pose proof (Cmod_ge_0 z). nra. }
    pose proof (Cmod_ge_0 A) as A0. pose proof (Cmod_ge_0 (Cmult z B)) as B0. pose proof (Rabs_pos r) as R0.
    split.
    + assert (Tr := Cmod_triangle (Cminus A (Cmult (RtoC r) (Cmult z B))) (Cmult (RtoC r) (Cmult z B))).
      replace (Cplus (Cminus A (Cmult (RtoC r) (Cmult z B))) (Cmult (RtoC r) (Cmult z B))) with A in Tr by ring.
      rewrite (Cmod_mult (RtoC r)), Cmod_R in Tr. nra.
    + assert (Gp := mod_gap A (Cmult z B) r). apply Rabs_def2 in Sr. 
      set (u := Cmod (Cminus A (Cmult (RtoC r) (Cmult z B)))) in *. set (v := Cmod (Cminus (Cmult z B) (Cmult (RtoC r) A))) in *.
      assert (0 <= u) by apply Cmod_ge_0. assert (0 <= v) by apply Cmod_ge_0.
      assert (0 <= 1 - r ^ 2) by nra. assert (0 <= Cmod A ^ 2 - Cmod (Cmult z B) ^ 2) by nra.
      assert (0 <= u ^ 2 - v ^ 2) by (rewrite Gp; apply Rmult_le_pos; assumption). nra.
Qed.

(** ---------- the companion filter ---------- *)
Lemma companion x N M z : Cmod z = 1 -> b_dead (burg x N M) = false ->
  mean_square x N * Re (Cmult (error_filter (dual x N M) M z) (Cconj (error_filter (b_a (burg x N M)) M z))) = b_msd (burg x N M).
Proof.
  intros Hz. induction M as [|m IH]; intros D.
  - unfold error_filter. cbn [csum_from burg b_a burg_init b_msd]. replace (Cminus (RtoC 1) (RtoC 0)) with (RtoC 1) by ring. unfold Cconj, Cmult, RtoC, Re; cbn [fst snd]. ring.
  - destruct (burg_alive _ _ _ D) as [D' [Ea Em]]. rewrite Em, <- (IH D').
    rewrite (error_filter_ext (b_a (burg x N (S m))) (new_a (S m) (reflection N (S m) (burg x N m)) (b_a (burg x N m)))) by (intros; apply Ea). cbn [dual].
    rewrite !error_filter_step by (assumption || lia). replace (S m - 1)%nat with m by lia.
    set (r := reflection N (S m) (burg x N m)). set (A := error_filter (b_a (burg x N m)) m z). set (B := error_filter (dual x N m) m z).
    pose proof (Cpow_conj_unit z (S m) (unit_mod z Hz)) as U. set (w := Cpow z (S m)) in *. destruct A as [a b], B as [c d], w as [e f].
    unfold Cminus, Cplus, Copp, Cmult, Cconj, RtoC, Re in *; cbn [fst snd] in *. injection U as U1 U2.
    assert (U3 : e * e + f * f = 1) by lra. 
    transitivity (mean_square x N * ((c * a + d * b) * (1 - r ^ 2 * (e * e + f * f)))); [ring|]. rewrite U3. ring.
Qed.

(** ---------- neighbourhood of the unit circle ---------- *)
Lemma csum_mod f : forall n a, Cmod (csum_from a n f) <= sum_from a n (fun i => Cmod (f i)).
Proof.
  induction n as [|n IH]; intros a; cbn [csum_from sum_from]; [rewrite Cmod_0; lra|].
  eapply Rle_trans; [apply Cmod_triangle|]. apply Rplus_le_compat_l, IH.
Qed.
Lemma spread a M r t : Cmod (Cminus (error_filter a M (polar 1 t)) (error_filter a M (polar r t))) <= sum_from 1 M (fun i => Rabs (a i) * Rabs (r ^ i - 1)).
Proof.
  unfold error_filter. 
  replace (Cminus (Cminus (RtoC 1) (csum_from 1 M (fun i => Cmult (RtoC (a i)) (Cpow (polar 1 t) i)))) (Cminus (RtoC 1) (csum_from 1 M (fun i => Cmult (RtoC (a i)) (Cpow (polar r t) i)))))
    with (csum_from 1 M (fun i => Cminus (Cmult (RtoC (a i)) (Cpow (polar r t) i)) (Cmult (RtoC (a i)) (Cpow (polar 1 t) i)))) by (rewrite csum_from_minus; ring).
  eapply Rle_trans; [apply csum_mod|]. right. apply sum_from_ext. intros i _. rewrite !Cpow_polar, pow1.
  replace (Cminus (Cmult (RtoC (a i)) (r ^ i * cos (INR i * t), r ^ i * sin (INR i * t))) (Cmult (RtoC (a i)) (1 * cos (INR i * t), 1 * sin (INR i * t)))) with (polar (a i * (r ^ i - 1)) (INR i * t)).
  - rewrite polar_mod. apply Rabs_mult.
  - unfold polar, Cminus, Cplus, Copp, Cmult, RtoC; cbn [fst snd]. f_equal; ring.
Qed.
Lemma spread_small (b : nat -> R) M (eps : posreal) : locally 1 (fun r => sum_from 1 M (fun i => Rabs (b i) * Rabs (r ^ i - 1)) < eps).
Proof.
  assert (C : continuity_pt (fun r => sum_from 1 M (fun i => Rabs (b i) * Rabs (r ^ i - 1))) 1).
  { assert (G : forall n a, continuity_pt (fun r => sum_from a n (fun i => Rabs (b i) * Rabs (r ^ i - 1))) 1).
    { induction n as [|n IH]; intros a; cbn [sum_from]; [apply continuity_pt_const; intros u v; reflexivity|].
      apply (continuity_pt_plus (fun r => Rabs (b a) * Rabs (r ^ a - 1)) (fun r => sum_from (S a) n (fun i => Rabs (b i) * Rabs (r ^ i - 1)))); [|apply IH].
      apply (continuity_pt_mult (fun _ => Rabs (b a)) (fun r => Rabs (r ^ a - 1))); [apply continuity_pt_const; intros u v; reflexivity|].
      apply (continuity_pt_comp (fun r => r ^ a - 1) Rabs); [|apply Rcontinuity_abs].
      apply (continuity_pt_minus (fun r => r ^ a) (fun _ => 1)); [apply derivable_continuous_pt, derivable_pt_pow|apply continuity_pt_const; intros u v; reflexivity]. }
    apply G. }
  apply (proj1 (continuity_pt_locally _ _)) with (eps := eps) in C. eapply filter_imp; [|exact C]. cbv beta. intros r Hr.
  rewrite (sum_from_ext (fun i => Rabs (b i) * Rabs (1 ^ i - 1)) (fun _ => 0 * 0)) in Hr by (intros; rewrite pow1, Rminus_eq_0, Rabs_R0; ring).
  rewrite sum_from_scal_r in Hr. apply Rabs_def2 in Hr. lra.
Qed.

(** ---------- the integral over one period of the phase ---------- *)
Lemma nn_mod a M r t : nn (px (pc a) (S M) r t) (py (pc a) (S M) r t) = Cmod (error_filter a M (polar r t)) ^ 2.
Proof. rewrite <- Cmod_sqr, filter_polar. unfold nn, Cmult, Cconj, Re; cbn [fst snd]. ring. Qed.
Lemma phase_integral x N M : b_msd (burg x N M) <> 0 ->
  is_RInt (fun t => spectral_density (b_a (burg x N M)) M (b_msd (burg x N M)) (polar 1 t)) 0 (2 * PI) (2 * PI * mean_square x N).
Proof.
  intros Hm. destruct (msd_nonzero_strict _ _ _ Hm) as [D S]. destruct (disc x N M D S) as [c [Hc P]].
  set (a := b_a (burg x N M)) in *. set (q := fun i => mean_square x N * pc (dual x N M) i).
  assert (Q : forall r t, px q (Datatypes.S M) r t = mean_square x N * px (pc (dual x N M)) (Datatypes.S M) r t /\ py q (Datatypes.S M) r t = mean_square x N * py (pc (dual x N M)) (Datatypes.S M) r t).
  { intros r t. unfold px, py, q. rewrite <- !sum_from_scal_r. split; apply sum_from_ext; intros; ring. }
  assert (V := mean_value (pc a) q (Datatypes.S M) ltac:(lia)). replace (2 * PI * (q 0%nat / pc a 0%nat)) with (2 * PI * mean_square x N) in V by (unfold q; cbn [pc]; field).
  eapply is_RInt_ext; [|apply V].
  - intros t _. cbv beta. unfold qre, spectral_density. rewrite nn_mod. f_equal. fold a. rewrite <- (companion x N M (polar 1 t)) by (try assumption; rewrite polar_mod; apply Rabs_R1).
    destruct (Q 1 t) as [-> ->]. fold a. rewrite !filter_polar. unfold Cmult, Cconj, Re; cbn [fst snd]. ring.
  - assert (In : forall r, Rabs r <= 1 -> good (pc a) (Datatypes.S M) r).
    { intros r Hr t. rewrite nn_mod. destruct (P (polar r t)) as [P1 _]; [rewrite polar_mod; exact Hr|]. apply pow_nonzero. lra. }
    intros r Hr. destruct (Rlt_dec r 1) as [L|L].
    + exists (mkposreal (1 - r) ltac:(lra)). intros u Hu. apply In. unfold ball in Hu; cbn in Hu. unfold AbsRing_ball, abs, minus, plus, opp in Hu; cbn in Hu. apply Rabs_def2 in Hu. apply Rabs_le. lra.
    + replace r with 1 by lra. eapply filter_imp; [|apply (spread_small a M (mkposreal c Hc))]. cbn [pos]. intros u Hu t. rewrite nn_mod. apply pow_nonzero.
      destruct (P (polar 1 t)) as [P1 _]; [rewrite polar_mod, Rabs_R1; lra|]. assert (Sp := spread a M u t).
      assert (Tr := Cmod_triangle (Cminus (error_filter a M (polar 1 t)) (error_filter a M (polar u t))) (error_filter a M (polar u t))).
      replace (Cplus (Cminus (error_filter a M (polar 1 t)) (error_filter a M (polar u t))) (error_filter a M (polar u t))) with (error_filter a M (polar 1 t)) in Tr by ring. lra.
Qed.
