(** C114, asymmetric Lorentzian: a spectrum that is exactly an asymmetric peak, sampled at 45 or more frequencies, determines the fit up to the sign of
    the width. *)
From Coq Require Import Reals List Lra Lia.
From Verif Require Import FitFunctionsModel ExactFitProps AsymmetricFitProofs.
Import ListNotations.
Open Scope R_scope.

(** the parameters are a least-squares solution: no other admissible parameters fit better ([residual] is the sum of squares of ExactFitProps) *)
Definition least_squares5 (curve : R -> R -> R -> R -> R -> R -> R) (xs ys : list R) (a b c d s : R) : Prop :=
  b <> 0 /\ forall a' b' c' d' s', b' <> 0 -> residual (curve a b c d s) xs ys <= residual (curve a' b' c' d' s') xs ys.

(** Every least-squares solution has the true centre, asymmetry and base line; the report (the position is the place x0 where the minimiser stopped)
    has the height of the true curve there, the true area and, up to sign, the true width there. *)
Theorem C114_asymmetric_partial : forall xs a b c d s a' b' c' d' s', NoDup xs -> (45 <= length xs)%nat -> 0 < b -> 0 < c ->
  least_squares5 asymmetric xs (map (asymmetric a b c d s) xs) a' b' c' d' s' ->
  a' = a /\ d' = d /\ s' = s /\ (b' = b /\ c' = c \/ b' = - b /\ c' = - c) /\
  (forall x, asymmetric a' b' c' d' s' x = asymmetric a b c d s x) /\
  forall x0 xmax err r, asymmetric_fitting a' b' c' d' s' x0 xmax err = Some r ->
     r_position r = x0 /\ r_maximum r = asymmetric a b c d s x0 /\ r_area r = RInt (asymmetric a b c d s) 0 xmax /\ r_base_line r = d /\
     Rabs (r_width r) = 2 * g_a a b s x0 /\ (0 < r_width r -> b' = b).
Proof.
  intros xs a b c d s a' b' c' d' s' N L Hb Hc (Hb' & M).
  assert (Z : residual (asymmetric a' b' c' d' s') xs (map (asymmetric a b c d s) xs) <= 0) by (apply Rle_trans with (residual (asymmetric a b c d s) xs (map (asymmetric a b c d s) xs)); [apply M; lra|rewrite residual_self; lra]).
  assert (E := equal_everywhere xs a b c d s a' b' c' d' s' N L ltac:(lra) Hb' (residual_zero _ _ xs Z)).
  destruct (same_curve a b c d s a' b' c' d' s' ltac:(lra) Hb' ltac:(lra) E) as (-> & -> & -> & S). split; [reflexivity|]. split; [reflexivity|]. split; [reflexivity|]. split; [exact S|].
  split; [intros x; symmetry; apply E|]. intros x0 xmax err r F. unfold asymmetric_fitting, finish in F. destruct (isnan _); [discriminate|]. injection F as <-.
  cbn [r_position r_maximum r_area r_base_line r_width]. split; [reflexivity|]. split; [symmetry; apply E|]. split; [apply RInt_ext; intros x _; symmetry; apply E|]. split; [reflexivity|].
  assert (P := exp_pos (s * (x0 - a))). assert (G : 0 < g_a a b s x0) by (unfold g_a, Rdiv; apply Rmult_lt_0_compat; [lra|apply Rinv_0_lt_compat; lra]).
  destruct S as [[-> ->]|[-> ->]].
  - split; [apply Rabs_pos_eq; lra|reflexivity].
  - assert (G2 : g_a a (- b) s x0 = - g_a a b s x0) by (unfold g_a; field; lra). rewrite G2. split; [|intros Q; lra]. replace (2 * - g_a a b s x0) with (- (2 * g_a a b s x0)) by ring. rewrite Rabs_Ropp. apply Rabs_pos_eq. lra.
Qed.
(** the true coefficients are a solution *)
Theorem C114_asymmetric_exists : forall xs a b c d s, 0 < b -> least_squares5 asymmetric xs (map (asymmetric a b c d s) xs) a b c d s.
Proof. intros xs a b c d s Hb. split; [lra|]. intros a' b' c' d' s' _. rewrite residual_self. apply residual_nonneg. Qed.
(** but so are those with negative width and area: for every peak they fit as well, are reported as good whenever the true ones are, and differ only in
    the width, which is negative *)
Theorem C114_asymmetric_sign_refuted : forall xs a b c d s x0 xmax err r, 0 < b ->
  least_squares5 asymmetric xs (map (asymmetric a b c d s) xs) a (- b) (- c) d s /\
  (asymmetric_fitting a b c d s x0 xmax err = Some r -> exists r', asymmetric_fitting a (- b) (- c) d s x0 xmax err = Some r' /\
     r_width r' < 0 /\ r_width r' = - r_width r /\ r_position r' = r_position r /\ r_maximum r' = r_maximum r /\ r_area r' = r_area r /\ r_base_line r' = r_base_line r /\ r_error r' = r_error r).
Proof.
  intros xs a b c d s x0 xmax err r Hb.
  assert (G : forall x, g_a a (- b) s x = - g_a a b s x /\ 0 < g_a a b s x).
  { intros x. assert (P := exp_pos (s * (x - a))). split; [unfold g_a; field; lra|unfold g_a, Rdiv; apply Rmult_lt_0_compat; [lra|apply Rinv_0_lt_compat; lra]]. }
  assert (E : forall x, asymmetric a (- b) (- c) d s x = asymmetric a b c d s x).
  { intros x. destruct (G x) as [G1 G2]. unfold asymmetric. rewrite G1. assert (PP := PI_RGT_0). assert (Q := pow2_ge_0 ((x - a) / g_a a b s x)). f_equal.
    replace ((x - a) / - g_a a b s x) with (- ((x - a) / g_a a b s x)) by (field; lra). replace ((- ((x - a) / g_a a b s x)) ^ 2) with (((x - a) / g_a a b s x) ^ 2) by ring. set (q := ((x - a) / g_a a b s x) ^ 2) in *. field. lra. }
  split.
  - split; [lra|]. intros a' b' c' d' s' _. assert (Z : residual (asymmetric a (- b) (- c) d s) xs (map (asymmetric a b c d s) xs) = 0).
    { rewrite <- (map_ext _ _ E). apply residual_self. }
    rewrite Z. apply residual_nonneg.
  - intros F. unfold asymmetric_fitting, finish in *. rewrite (RInt_ext (asymmetric a (- b) (- c) d s) (asymmetric a b c d s) 0 xmax (fun x _ => E x)).
    destruct (isnan _); [discriminate|]. injection F as <-. eexists. split; [reflexivity|]. cbn [r_width r_position r_maximum r_area r_base_line r_error]. destruct (G x0) as [G1 G2]. rewrite G1, E. repeat split; try reflexivity; lra.
Qed.
(** 45 frequencies 0, 1, ..., 44 *)
Example C114_nonvacuous_asymmetric : NoDup (map INR (seq 0 45)) /\ length (map INR (seq 0 45)) = 45%nat /\
  least_squares5 asymmetric (map INR (seq 0 45)) (map (asymmetric 20 1 3 0 (1 / 10)) (map INR (seq 0 45))) 20 1 3 0 (1 / 10) /\ exists r, asymmetric_fitting 20 1 3 0 (1 / 10) 20 44 Inf = Some r.
Proof.
  split; [apply FinFun.Injective_map_NoDup; [intros x y; apply INR_eq|apply seq_NoDup]|]. split; [rewrite map_length; apply seq_length|]. split; [apply C114_asymmetric_exists; lra|].
  assert (A : 0 <= RInt (asymmetric 20 1 3 0 (1 / 10)) 0 44).
  { apply RInt_ge_0; [lra| |].
    - apply (ex_RInt_continuous (V := R_CompleteNormedModule)). intros x _. apply (continuous_ext (fun x => height 1 3 * (1 + exp (1 / 10 * (x - 20))) / below 20 1 (1 / 10) x + 0)); [intros y; symmetry; apply asymmetric_form; lra|].
      assert (Q := below_pos 20 1 (1 / 10) x ltac:(lra)). unfold below in *. apply (ex_derive_continuous (fun x => height 1 3 * (1 + exp (1 / 10 * (x - 20))) / (4 * 1 ^ 2 + (x - 20) ^ 2 * (1 + exp (1 / 10 * (x - 20))) ^ 2) + 0)).
      auto_derive. apply Rgt_not_eq. unfold Rminus in *. lra.
    - intros x _. rewrite asymmetric_form by lra. assert (Q := below_pos 20 1 (1 / 10) x ltac:(lra)). assert (P := PI_RGT_0). assert (E := exp_pos (1 / 10 * (x - 20))). unfold height. rewrite Rplus_0_r. unfold Rdiv at 1.
      apply Rmult_le_pos; [apply Rmult_le_pos; [unfold Rdiv; apply Rmult_le_pos; [lra|left; apply Rinv_0_lt_compat; lra]|lra]|left; apply Rinv_0_lt_compat; exact Q]. }
  unfold asymmetric_fitting, finish, div_sqrt. destruct (Rlt_dec (RInt (asymmetric 20 1 3 0 (1 / 10)) 0 44) 0) as [H|H]; [lra|]. cbn [isnan]. eexists. reflexivity.
Qed.
Print Assumptions C114_asymmetric_partial. Print Assumptions C114_asymmetric_exists. Print Assumptions C114_asymmetric_sign_refuted. Print Assumptions C114_nonvacuous_asymmetric.
