(** C103: the Gaussian fit of displacement distributions. *)
From Verif Require Export GaussianModel FitFunctionsSpec FitFunctionsProofs.
From Coq Require Import Lra.
Open Scope R_scope.

(** * Specification *)
(** f is, above the level [base], a normal distribution of mean m and standard deviation s with height h *)
Definition bell (f : R -> R) (base m s h : R) : Prop := 0 < s /\ forall t, f (m + t * s) - base = h * exp (- t^2 / 2).

(** * Proofs *)
Lemma gauss_flip a b c d x : b <> 0 -> gaussian a (- b) (- c) d x = gaussian a b c d x.
Proof. intros H. unfold gaussian. replace (- c / - b) with (c / b) by (field; exact H). replace ((- b)^2) with (b^2) by ring. reflexivity. Qed.
Lemma gauss_bell a b c d : b <> 0 -> bell (gaussian a b c d) d a (Rabs b) (c / b * sqrt (2 * PI)).
Proof.
  intros H. split; [apply Rabs_pos_lt, H|]. intros t. unfold gaussian. replace (- (a + t * Rabs b - a)^2 / (2 * b^2)) with (- t^2 / 2); [ring|].
  replace ((a + t * Rabs b - a)^2) with (t^2 * (Rabs b)^2) by ring. rewrite pow2_abs. field. exact H.
Qed.
Lemma sqrt2pi : 0 < sqrt (2 * PI). Proof. apply sqrt_lt_R0. pose proof PI_RGT_0. lra. Qed.
Lemma gauss_at a b c d : b <> 0 -> gaussian a b c d a = c / b * sqrt (2 * PI) + d.
Proof. intros H. unfold gaussian. replace (- (a - a)^2 / (2 * b^2)) with 0 by (field; exact H). rewrite exp_0. ring. Qed.
Lemma gauss_max a b c d : b <> 0 -> 0 < c / b -> strict_max (gaussian a b c d) a.
Proof.
  intros H P x N. rewrite gauss_at by exact H. unfold gaussian. pose proof sqrt2pi as Q.
  assert (E : exp (- (x - a)^2 / (2 * b^2)) < 1).
  { rewrite <- exp_0. apply exp_increasing. assert (0 < b^2) by nra. assert (0 < (x - a)^2) by nra. unfold Rdiv. 
    assert (0 < / (2 * b^2)) by (apply Rinv_0_lt_compat; lra). nra. }
  assert (0 < c / b * sqrt (2 * PI)) by (apply Rmult_lt_0_compat; assumption). nra.
Qed.
Lemma gauss_pos a b c x : 0 < c / b -> 0 < gaussian a b c 0 x.
Proof. intros P. unfold gaussian. rewrite Rplus_0_r. apply Rmult_lt_0_compat; [apply Rmult_lt_0_compat; [exact P|exact sqrt2pi]|apply exp_pos]. Qed.
Lemma gauss_cont a b c d x : b <> 0 -> continuous (gaussian a b c d) x.
Proof. intros H. apply (ex_derive_continuous (K := R_AbsRing) (V := R_NormedModule) (gaussian a b c d) x). unfold gaussian. auto_derive. auto. Qed.
Lemma gauss_int a b c d u v : b <> 0 -> ex_RInt (gaussian a b c d) u v.
Proof. intros H. apply (ex_RInt_continuous (V := R_CompleteNormedModule)). intros. apply gauss_cont, H. Qed.
Lemma b_ne c b : 0 < c / b -> b <> 0.
Proof. intros P ->. unfold Rdiv in P. rewrite Rinv_0 in P. lra. Qed.
Lemma gauss_shift a b c d s X : b <> 0 -> RInt (gaussian (a + s) b c d) 0 (X + s) = RInt (gaussian a b c d) (- s) X.
Proof.
  intros H. pose proof (RInt_comp_lin (gaussian a b c d) 1 (- s) 0 (X + s)) as E.
  replace (1 * 0 + - s) with (- s) in E by ring. replace (1 * (X + s) + - s) with X in E by ring.
  rewrite <- E by (apply gauss_int, H). apply RInt_ext. intros x _. unfold scal; cbn; unfold mult; cbn. rewrite Rmult_1_l. unfold gaussian. do 4 f_equal. ring.
Qed.
Lemma area_grows a b c s X : 0 < c / b -> 0 < s -> RInt (gaussian a b c 0) 0 X < RInt (gaussian (a + s) b c 0) 0 (X + s).
Proof.
  intros P S. assert (H := b_ne _ _ P). rewrite gauss_shift by exact H.
  pose proof (RInt_Chasles (gaussian a b c 0) (- s) 0 X (gauss_int _ _ _ _ _ _ H) (gauss_int _ _ _ _ _ _ H)) as E.
  change (RInt (gaussian a b c 0) (- s) 0 + RInt (gaussian a b c 0) 0 X = RInt (gaussian a b c 0) (- s) X) in E.
  assert (0 < RInt (gaussian a b c 0) (- s) 0). { apply RInt_gt_0; [lra| |]; intros; [apply gauss_pos, P|apply gauss_cont, H]. } lra.
Qed.
Lemma area_pos a b c X : 0 < c / b -> 0 < X -> 0 < RInt (gaussian a b c 0) 0 X.
Proof. intros P HX. apply RInt_gt_0; [exact HX| |]; intros; [apply gauss_pos, P|apply gauss_cont, (b_ne _ _ P)]. Qed.
Lemma area_neg a b c X : 0 < c / b -> X < 0 -> RInt (gaussian a b c 0) 0 X < 0.
Proof.
  intros P HX. pose proof (opp_RInt_swap (gaussian a b c 0) X 0 (gauss_int _ _ _ _ _ _ (b_ne _ _ P))) as E.
  change (- RInt (gaussian a b c 0) X 0 = RInt (gaussian a b c 0) 0 X) in E.
  assert (0 < RInt (gaussian a b c 0) X 0). { apply RInt_gt_0; [exact HX| |]; intros; [apply gauss_pos, P|apply gauss_cont, (b_ne _ _ P)]. } lra.
Qed.

(** * C103 *)
(** every report: the printed mean and deviation are those of the fitted curve, whatever the sign the optimiser gives to sigma *)
Theorem C103_mean_and_deviation : forall a b c d xmax err r, gaussian_fitting a b c d xmax err = Some r -> b <> 0 ->
  bell (gaussian a b c d) (r_base_line r) (r_position r) (r_width r) (r_maximum r - r_base_line r) /\ (0 < c / b -> strict_max (gaussian a b c d) (r_position r)).
Proof.
  intros a b c d xmax err r H B. apply finish_Some in H. destruct H as [-> [-> [-> [_ [-> _]]]]]. split.
  - rewrite gauss_at by exact B. replace (c / b * sqrt (2 * PI) + d - d) with (c / b * sqrt (2 * PI)) by ring. apply gauss_bell, B.
  - intros P. apply gauss_max; assumption.
Qed.
(** ... and these are the numbers printed after "Mean" and "Standard deviation" *)
Theorem C103_printed : forall a b c d xmax err mean deviation error, printed_fit (gaussian_fitting a b c d xmax err) = Some (mean, deviation, error) -> b <> 0 ->
  bell (gaussian a b c d) d mean deviation (gaussian a b c d mean - d).
Proof.
  intros a b c d xmax err mean deviation error H B. unfold printed_fit in H. destruct (gaussian_fitting a b c d xmax err) as [r|] eqn:E; [|discriminate]. cbn in H.
  assert (M : mean = r_position r) by congruence. assert (W : deviation = r_width r) by congruence. subst mean deviation.
  destruct (C103_mean_and_deviation a b c d xmax err r E B) as [Q _]. apply finish_Some in E. destruct E as [E1 [E2 [E3 [_ [E5 _]]]]]. rewrite E5, E1 in Q. rewrite E3 in *. exact Q.
Qed.
(** the two ways to write the same curve are reported alike *)
Theorem C103_sign_of_sigma : forall a b c d xmax err, b <> 0 -> (forall x, gaussian a (- b) (- c) d x = gaussian a b c d x) /\ gaussian_fitting a (- b) (- c) d xmax err = gaussian_fitting a b c d xmax err.
Proof.
  intros a b c d xmax err B. split; [intros x; apply gauss_flip, B|]. unfold gaussian_fitting. rewrite (gauss_flip a b c d a B), Rabs_Ropp.
  rewrite (RInt_ext (gaussian a (- b) (- c) d) (gaussian a b c d)) by (intros; apply gauss_flip, B). reflexivity.
Qed.
(** moving the origin of the displacements moves the mean and keeps the deviation, when both fits are reported *)
Theorem C103_translation_partial : forall a b c d s xmax err r r', gaussian_fitting a b c d xmax err = Some r -> gaussian_fitting (a + s) b c d (xmax + s) err = Some r' -> b <> 0 ->
  r_position r' = r_position r + s /\ r_width r' = r_width r /\ r_maximum r' = r_maximum r /\ r_base_line r' = r_base_line r.
Proof.
  intros a b c d s xmax err r r' H H' B. apply finish_Some in H, H'. destruct H as [-> [-> [-> [_ [-> _]]]]]. destruct H' as [-> [-> [-> [_ [-> _]]]]].
  rewrite !gauss_at by exact B. auto.
Qed.
(** a distribution that lies entirely at negative displacements is always refused: the area is taken from zero to the last abscissa *)
Theorem C103_negative_side_refuted : forall a b c xmax err, 0 < c / b -> xmax < 0 -> printed_fit (gaussian_fitting a b c 0 xmax err) = None.
Proof. intros a b c xmax err P X. unfold gaussian_fitting. rewrite finish_neg by (apply area_neg; assumption). reflexivity. Qed.
(** although the same distribution moved to the positive side is accepted *)
Theorem C103_positive_side_accepted : forall a b c xmax e, 0 < c / b -> 0 < xmax -> exists r, gaussian_fitting a b c 0 xmax (Fin e) = Some r.
Proof. intros a b c xmax e P X. unfold gaussian_fitting. rewrite finish_good by (apply area_pos; assumption). eexists. reflexivity. Qed.
(** and the reported error shrinks as the distribution is moved to the right, without any change of the fit *)
Theorem C103_error_depends_on_origin_refuted : forall a b c s xmax e, 0 < c / b -> 0 < xmax -> 0 < s -> 0 < e ->
  exists r r' x x', gaussian_fitting a b c 0 xmax (Fin e) = Some r /\ gaussian_fitting (a + s) b c 0 (xmax + s) (Fin e) = Some r' /\ r_error r = Fin x /\ r_error r' = Fin x' /\ x' < x.
Proof.
  intros a b c s xmax e P X S E. unfold gaussian_fitting. rewrite !finish_good by (apply area_pos; try assumption; lra).
  eexists. eexists. eexists. eexists. split; [reflexivity|]. split; [reflexivity|]. cbn [r_error]. split; [reflexivity|]. split; [reflexivity|].
  pose proof (area_pos a b c xmax P X) as A. pose proof (area_grows a b c s xmax P S) as G.
  unfold Rdiv. apply Rmult_lt_compat_l; [exact E|]. apply Rinv_lt_contravar; [apply Rmult_lt_0_compat; apply sqrt_lt_R0; lra|]. apply sqrt_lt_1; lra.
Qed.
(** non-vacuity: a centred distribution of deviation 1/10 on bins up to 1/2 *)
Example C103_nonvacuous : exists r, gaussian_fitting 0 (- (1/10)) (- (1/10)) 0 (1/2) (Fin (1/100)) = Some r /\ r_width r = 1/10 /\ bell (gaussian 0 (- (1/10)) (- (1/10)) 0) 0 0 (1/10) (sqrt (2 * PI)).
Proof.
  destruct (C103_positive_side_accepted 0 (- (1/10)) (- (1/10)) (1/2) (1/100)) as [r H]; [replace (- (1/10) / - (1/10)) with 1 by field; lra|lra|]. exists r. split; [exact H|].
  assert (E : Rabs (- (1/10)) = 1/10) by (rewrite Rabs_left; lra). split.
  - apply finish_Some in H. destruct H as [_ [-> _]]. exact E.
  - pose proof (gauss_bell 0 (- (1/10)) (- (1/10)) 0) as B. replace (- (1/10) / - (1/10) * sqrt (2 * PI)) with (sqrt (2 * PI)) in B by field. rewrite E in B. apply B. lra.
Qed.
Print Assumptions C103_mean_and_deviation. Print Assumptions C103_sign_of_sigma. Print Assumptions C103_translation_partial. Print Assumptions C103_negative_side_refuted. Print Assumptions C103_positive_side_accepted. Print Assumptions C103_error_depends_on_origin_refuted. Print Assumptions C103_printed.
