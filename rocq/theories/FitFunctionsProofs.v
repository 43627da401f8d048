From Verif Require Import FitFunctionsModel FitFunctionsSpec.
From Coq Require Import Reals Lra Psatz.
From Coquelicot Require Import Coquelicot.
Open Scope R_scope.

Lemma finish_Some m w f a d err r : finish m w f a d err = Some r ->
  r_maximum r = m /\ r_width r = w /\ r_position r = f /\ r_area r = a /\ r_base_line r = d /\ r_error r = div_sqrt err a /\ 0 <= a.
Proof.
  unfold finish. cbv zeta. destruct (isnan (div_sqrt err a)) eqn:E; [discriminate|]. intros H. inversion H. cbn. repeat split; try reflexivity.
  unfold div_sqrt in E. destruct err; cbn in E; try discriminate; destruct (Rlt_dec a 0); cbn in E; try discriminate; lra.
Qed.
Lemma finish_good m w f a d e : 0 < a -> finish m w f a d (Fin e) = Some (MkReport m w f (Fin (e / sqrt a)) a d).
Proof. intros H. unfold finish, div_sqrt. cbv zeta. destruct (Rlt_dec a 0); [lra|]. destruct (Req_EM_T a 0); [lra|]. reflexivity. Qed.
Lemma finish_neg m w f a d err : a < 0 -> finish m w f a d err = None.
Proof. intros H. unfold finish, div_sqrt. cbv zeta. destruct err; try destruct (Rlt_dec a 0); try lra; reflexivity. Qed.

Lemma div_pos c b : 0 <= c -> 0 < c / b -> 0 < c /\ 0 < b.
Proof.
  intros Hc H. assert (b <> 0). { intros ->. unfold Rdiv in H. rewrite Rinv_0, Rmult_0_r in H. lra. }
  assert (c = (c / b) * b) by (field; assumption). split.
  - destruct Hc as [Hc|Hc]; [exact Hc|]. subst c. unfold Rdiv in H. rewrite Rmult_0_l in H. lra.
  - destruct (Rlt_le_dec 0 b); [assumption|]. nra.
Qed.
(** Lorentzian *)
Lemma lor_form a b c d x : b <> 0 -> lorentzian a b c d x - d = (c / b) / PI * / (1 + ((x - a) / b)^2).
Proof.
  intros Hb. assert (Hp := PI_RGT_0). unfold lorentzian. assert (1 + ((x - a) / b)^2 <> 0) by (assert (0 <= ((x-a)/b)^2) by apply pow2_ge_0; lra).
  set (u := 1 + ((x - a) / b)^2) in *. field. repeat split; try assumption; lra.
Qed.
Lemma sq_pos_iff x a b : b <> 0 -> x <> a -> 0 < ((x - a) / b)^2.
Proof. intros Hb Hx. apply pow2_gt_0. unfold Rdiv. apply Rmult_integral_contrapositive_currified; [lra|apply Rinv_neq_0_compat; exact Hb]. Qed.
Lemma lor_at a b c d : b <> 0 -> lorentzian a b c d a - d = c / b / PI.
Proof. intros Hb. rewrite lor_form by exact Hb. replace ((a - a) / b) with 0 by (field; exact Hb). field. split; [exact Hb|assert (H := PI_RGT_0); lra]. Qed.
Lemma lor_max a b c d : b <> 0 -> 0 < c / b -> strict_max (lorentzian a b c d) a.
Proof.
  intros Hb Hc x Hx. assert (Hp := PI_RGT_0). assert (S := sq_pos_iff x a b Hb Hx). assert (F := lor_form a b c d x Hb). assert (G := lor_at a b c d Hb).
  assert (K : 0 < c / b / PI) by (apply Rdiv_lt_0_compat; assumption).
  assert (I : / (1 + ((x - a) / b)^2) < 1). { rewrite <- Rinv_1 at 2. apply Rinv_lt_contravar; lra. } nra.
Qed.
Lemma lor_min a b c d : b <> 0 -> c / b < 0 -> strict_min (lorentzian a b c d) a.
Proof.
  intros Hb Hc x Hx. assert (Hp := PI_RGT_0). assert (S := sq_pos_iff x a b Hb Hx). assert (F := lor_form a b c d x Hb). assert (G := lor_at a b c d Hb).
  assert (K : 0 < - (c / b) / PI) by (apply Rdiv_lt_0_compat; lra).
  assert (E : - (c / b) / PI = - (c / b / PI)) by (field; split; [assumption|lra]).
  assert (I : / (1 + ((x - a) / b)^2) < 1). { rewrite <- Rinv_1 at 2. apply Rinv_lt_contravar; lra. } nra.
Qed.
Lemma lor_fwhm a b c d : 0 < b -> 0 < c -> fwhm_centred (lorentzian a b c d) d a (2 * b).
Proof.
  intros Hb Hc. split; [lra|]. intros x. assert (Hp := PI_RGT_0). assert (Hb' : b <> 0) by lra. rewrite (lor_at a b c d Hb'), (lor_form a b c d x Hb').
  assert (K : 0 < c / b / PI) by (repeat apply Rdiv_lt_0_compat; assumption). set (k := c / b / PI) in *.
  assert (Q : 0 <= ((x - a) / b)^2) by apply pow2_ge_0. set (q := ((x - a) / b)^2) in *.
  assert (E : Rabs (x - a) <= 2 * b / 2 <-> q <= 1).
  { replace (2 * b / 2) with b by field. unfold q. rewrite <- (pow2_abs ((x - a) / b)), Rabs_div, (Rabs_pos_eq b) by lra.
    assert (P := Rabs_pos (x - a)). set (r := Rabs (x - a)) in *. assert (E : r = r / b * b) by (field; lra). assert (0 <= r / b) by (apply Rdiv_le_0_compat; lra). split; intros H1; nra. }
  rewrite E. assert (I : / (1 + q) * (1 + q) = 1) by (apply Rinv_l; lra). assert (0 < / (1 + q)) by (apply Rinv_0_lt_compat; lra). set (v := / (1 + q)) in *. split; intros H1.
  - assert (1/2 <= v) by nra. nra.
  - assert (1/2 <= v) by nra. nra.
Qed.
Lemma atan_p_infty : filterlim atan (Rbar_locally p_infty) (locally (PI/2)).
Proof.
  assert (Hp := PI_RGT_0). apply filterlim_locally. intros eps. assert (He := cond_pos eps).
  set (e := Rmin eps (PI/4)). assert (He' : 0 < e) by (unfold e; apply Rmin_pos; lra). assert (e <= PI/4) by apply Rmin_r. assert (e <= eps) by apply Rmin_l.
  exists (tan (PI/2 - e)). intros x Hx. assert (A : PI/2 - e < atan x). { rewrite <- (atan_tan (PI/2 - e)) by lra. apply atan_increasing. exact Hx. }
  assert (B := atan_bound x). change (Rabs (atan x - PI/2) < eps). apply Rabs_def1; lra.
Qed.
Lemma atan_m_infty : filterlim atan (Rbar_locally m_infty) (locally (- (PI/2))).
Proof.
  assert (Hp := PI_RGT_0). apply filterlim_locally. intros eps. assert (He := cond_pos eps).
  set (e := Rmin eps (PI/4)). assert (He' : 0 < e) by (unfold e; apply Rmin_pos; lra). assert (e <= PI/4) by apply Rmin_r. assert (e <= eps) by apply Rmin_l.
  exists (tan (- (PI/2) + e)). intros x Hx. assert (A : atan x < - (PI/2) + e). { rewrite <- (atan_tan (- (PI/2) + e)) by lra. apply atan_increasing. exact Hx. }
  assert (B := atan_bound x). change (Rabs (atan x - - (PI/2)) < eps). apply Rabs_def1; lra.
Qed.
Definition prim (a b c x : R) : R := c / PI * atan ((x - a) / b).
Lemma prim_derive a b c d x : b <> 0 -> is_derive (prim a b c) x (lorentzian a b c d x - d).
Proof.
  intros Hb. assert (Hp := PI_RGT_0). unfold prim. auto_derive; [trivial|]. rewrite lor_form by exact Hb. unfold Rsqr.
  assert (0 <= ((x - a) / b)^2) by apply pow2_ge_0. field. repeat split; try lra; try assumption. intros E. assert (0 < b^2) by (apply pow2_gt_0; exact Hb). assert (0 <= (x-a)^2) by apply pow2_ge_0. nra.
Qed.
Lemma lor_cont a b c d x : b <> 0 -> continuous (fun x => lorentzian a b c d x - d) x.
Proof.
  intros Hb. assert (Hp := PI_RGT_0). apply (ex_derive_continuous (K := R_AbsRing) (V := R_NormedModule)). unfold lorentzian. auto_derive. assert (0 <= ((x - a) / b)^2) by apply pow2_ge_0.
  change (PI * b * (1 + ((x + - a) * / b)^2) <> 0). fold (Rminus x a). fold (Rdiv (x - a) b). apply Rmult_integral_contrapositive_currified; [apply Rmult_integral_contrapositive_currified; [lra|exact Hb]|lra].
Qed.
Lemma lin_lim_p a b : 0 < b -> filterlim (fun x => (x - a) / b) (Rbar_locally p_infty) (Rbar_locally p_infty).
Proof. intros Hb P [M HM]. exists (a + M * b). intros x Hx. apply HM. apply Rmult_lt_reg_r with b; [exact Hb|]. unfold Rdiv. rewrite Rmult_assoc, Rinv_l by lra. lra. Qed.
Lemma lin_lim_m a b : 0 < b -> filterlim (fun x => (x - a) / b) (Rbar_locally m_infty) (Rbar_locally m_infty).
Proof. intros Hb P [M HM]. exists (a + M * b). intros x Hx. apply HM. apply Rmult_lt_reg_r with b; [exact Hb|]. unfold Rdiv. rewrite Rmult_assoc, Rinv_l by lra. lra. Qed.
Lemma lor_area a b c d : 0 < b -> integral_R (fun x => lorentzian a b c d x - d) c.
Proof.
  intros Hb. assert (Hp := PI_RGT_0). unfold integral_R. assert (D : forall x, Derive (prim a b c) x = lorentzian a b c d x - d) by (intros x; apply is_derive_unique, prim_derive; lra).
  apply (is_RInt_gen_ext (Derive (prim a b c))). { apply filter_forall. intros [u v] x _. apply D. }
  replace c with (c / PI * (PI/2) - c / PI * (- (PI/2))) at 2 by (field; lra).
  apply (is_RInt_gen_Derive (prim a b c)).
  - apply filter_forall. intros p x _. eexists. apply (prim_derive a b c d). lra.
  - apply filter_forall. intros p x _. apply (continuous_ext (fun x => lorentzian a b c d x - d)); [intros y; symmetry; apply D|]. apply lor_cont. lra.
  - unfold prim. apply (filterlim_comp _ _ _ (fun x => atan ((x - a) / b)) (fun y => c / PI * y) _ (locally (- (PI/2)))).
    + apply (filterlim_comp _ _ _ (fun x => (x - a) / b) atan _ (Rbar_locally m_infty)); [apply lin_lim_m; exact Hb|exact atan_m_infty].
    + apply (filterlim_scal_r (K := R_AbsRing) (V := R_NormedModule)).
  - unfold prim. apply (filterlim_comp _ _ _ (fun x => atan ((x - a) / b)) (fun y => c / PI * y) _ (locally (PI/2))).
    + apply (filterlim_comp _ _ _ (fun x => (x - a) / b) atan _ (Rbar_locally p_infty)); [apply lin_lim_p; exact Hb|exact atan_p_infty].
    + apply (filterlim_scal_r (K := R_AbsRing) (V := R_NormedModule)).
Qed.
Lemma lor_report a b c d err r : lorentzian_fitting a b c d err = Some r -> 0 < c / b ->
  r_position r = a /\ strict_max (lorentzian a b c d) (r_position r) /\ r_maximum r = lorentzian a b c d (r_position r) - d /\ r_base_line r = d /\
  fwhm_centred (lorentzian a b c d) d (r_position r) (r_width r) /\ integral_R (fun x => lorentzian a b c d x - d) (r_area r).
Proof.
  intros H Hc. apply finish_Some in H. destruct H as [Em [Ew [Ep [Ea [Ed [_ Hp]]]]]]. rewrite Em, Ew, Ep, Ea. destruct (div_pos c b Hp Hc) as [C B]. assert (b <> 0) by lra.
  split; [reflexivity|]. split; [apply lor_max; assumption|]. split; [rewrite lor_at by assumption; assert (P := PI_RGT_0); field; split; lra|]. split; [exact Ed|]. split; [apply lor_fwhm; assumption|apply lor_area; exact B].
Qed.
Lemma lor_flip a b c d x : b <> 0 -> lorentzian a (- b) (- c) d x = lorentzian a b c d x.
Proof. intros Hb. assert (H := lor_form a b c d x Hb). assert (Hb' : - b <> 0) by lra. assert (H' := lor_form a (-b) (-c) d x Hb'). replace ((x - a) / - b) with (- ((x - a) / b)) in H' by (field; lra). replace (- c / - b) with (c / b) in H' by (field; lra). replace ((- ((x - a) / b))^2) with (((x - a) / b)^2) in H' by ring. lra. Qed.
Lemma lor_flip_report a b c d e : 0 < b -> 0 < c -> (exists r, lorentzian_fitting a b c d (Fin e) = Some r) /\ lorentzian_fitting a (-b) (-c) d (Fin e) = None.
Proof. intros Hb Hc. split; [eexists; apply finish_good; exact Hc|apply finish_neg; lra]. Qed.
Lemma lor_dip a b c d e : b < 0 -> 0 < c -> exists r, lorentzian_fitting a b c d (Fin e) = Some r /\ strict_min (lorentzian a b c d) (r_position r) /\ r_width r < 0 /\ r_maximum r < 0.
Proof.
  intros Hb Hc. eexists. split; [apply finish_good; exact Hc|]. cbn. assert (Hp := PI_RGT_0). assert (N : / b < 0) by (apply Rinv_lt_0_compat; exact Hb).
  split; [apply lor_min; [lra|unfold Rdiv; nra]|]. split; [lra|]. assert (b * PI < 0) by nra. assert (/ (b * PI) < 0) by (apply Rinv_lt_0_compat; assumption). unfold Rdiv. nra.
Qed.

(** asymmetric *)
Lemma ga0 a b x : g_a a b 0 x = b.
Proof. unfold g_a. rewrite Rmult_0_l, exp_0. field. Qed.
Lemma asym0 a b c d x : asymmetric a b c d 0 x = lorentzian a b c d x.
Proof. unfold asymmetric, lorentzian. rewrite ga0. reflexivity. Qed.
Lemma asym_report a b c d s x0 xmin xmax err r : asymmetric_fitting a b c d s x0 xmax err = Some r ->
  xmin <= x0 <= xmax -> (forall x, xmin <= x <= xmax -> asymmetric a b c d s x <= asymmetric a b c d s x0) ->
  xmin <= r_position r <= xmax /\ (forall x, xmin <= x <= xmax -> asymmetric a b c d s x <= asymmetric a b c d s (r_position r)) /\ r_maximum r = asymmetric a b c d s (r_position r).
Proof. intros H Hx Hm. apply finish_Some in H. destruct H as [Em [_ [Ep _]]]. rewrite Ep, Em. tauto. Qed.
Lemma asym0_report a b c d x0 xmin xmax err r : 0 < c / b -> asymmetric_fitting a b c d 0 x0 xmax err = Some r ->
  xmin <= x0 <= xmax -> xmin <= a <= xmax -> (forall x, xmin <= x <= xmax -> asymmetric a b c d 0 x <= asymmetric a b c d 0 x0) ->
  r_position r = a /\ r_width r = 2 * b /\ r_maximum r = c / (b * PI) + d.
Proof.
  intros Hc H Hx Ha Hm. assert (Hb : b <> 0). { intros ->. unfold Rdiv in Hc. rewrite Rinv_0, Rmult_0_r in Hc. lra. }
  assert (E : x0 = a). { destruct (Req_dec x0 a) as [E|E]; [exact E|exfalso]. specialize (Hm a Ha). rewrite !asym0 in Hm. assert (L := lor_max a b c d Hb Hc x0 E). lra. }
  subst x0. apply finish_Some in H. destruct H as [Em [Ew [Ep _]]]. rewrite Ep, Ew, Em, ga0, asym0. split; [reflexivity|]. split; [reflexivity|]. assert (L := lor_at a b c d Hb). assert (P := PI_RGT_0). replace (c / (b * PI)) with (c / b / PI) by (field; split; lra). lra.
Qed.

(** damped harmonic oscillator *)
Lemma damped_den a b x : a <> 0 -> b <> 0 -> 0 < (a^2 - x^2)^2 + (b * x)^2.
Proof.
  intros Ha Hb. assert (0 <= (a^2 - x^2)^2) by apply pow2_ge_0. assert (0 <= (b * x)^2) by apply pow2_ge_0. destruct (Req_dec x 0) as [->|Hx].
  - assert (0 < (a^2 - 0^2)^2); [|lra]. apply pow2_gt_0. replace (a^2 - 0^2) with (a^2) by ring. apply pow_nonzero. exact Ha.
  - assert (0 < (b * x)^2); [|lra]. apply pow2_gt_0. apply Rmult_integral_contrapositive_currified; assumption.
Qed.
Lemma damped_not_max a b c d : 0 < a -> b <> 0 -> b^2 < 2 * a^2 -> 0 < c -> exists x, 0 < x /\ damped a b c d a < damped a b c d x /\ forall y, damped a b c d y <= damped a b c d x.
Proof.
  intros Ha Hb Hab Hc. assert (Hb2 : 0 < b^2) by (apply pow2_gt_0; exact Hb). exists (sqrt (a^2 - b^2/2)). assert (P : 0 < a^2 - b^2/2) by lra.
  split; [apply sqrt_lt_R0; exact P|]. assert (S : sqrt (a^2 - b^2/2)^2 = a^2 - b^2/2) by (rewrite pow2_sqrt; lra). set (x := sqrt _) in *.
  assert (Ex : (a^2 - x^2)^2 + (b * x)^2 = a^2 * b^2 - b^2 * b^2 / 4). { replace ((b * x)^2) with (b^2 * x^2) by ring. rewrite S. field. }
  assert (Q := damped_den a b x ltac:(lra) Hb).
  split.
  - unfold damped. apply Rplus_lt_compat_r. unfold Rdiv. apply Rmult_lt_compat_l; [exact Hc|]. apply Rinv_lt_contravar; [apply Rmult_lt_0_compat; [exact Q|apply damped_den; lra]|]. rewrite Ex. replace ((a^2 - a^2)^2 + (b * a)^2) with (a^2 * b^2) by ring. nra.
  - intros y. unfold damped. apply Rplus_le_compat_r. unfold Rdiv. apply Rmult_le_compat_l; [lra|]. apply Rinv_le_contravar; [exact Q|]. rewrite Ex.
    assert (E : (a^2 - y^2)^2 + (b * y)^2 = (y^2 - (a^2 - b^2/2))^2 + (a^2 * b^2 - b^2 * b^2 / 4)) by field. rewrite E. assert (0 <= (y^2 - (a^2 - b^2/2))^2) by apply pow2_ge_0. lra.
Qed.
Lemma damped_neg a b c d x : damped (- a) b c d x = damped a b c d x.
Proof. unfold damped. replace ((- a)^2) with (a^2) by ring. reflexivity. Qed.
Lemma damped_at a b c d : a <> 0 -> b <> 0 -> damped a b c d a = c / (a * b)^2 + d.
Proof. intros Ha Hb. unfold damped. replace ((a^2 - a^2)^2 + (b * a)^2) with ((a * b)^2) by ring. reflexivity. Qed.
(** the x^2-weighted curve *)
Definition weighted (a b c x : R) : R := x^2 * (damped a b c 0 x).
Lemma weighted_form a b c x : 0 < a -> b <> 0 -> 0 < x -> weighted a b c x = c / (((a^2 - x^2) / x)^2 + b^2).
Proof.
  intros Ha Hb Hx. unfold weighted, damped. assert (D := damped_den a b x ltac:(lra) Hb).
  assert (E : ((a^2 - x^2) / x)^2 + b^2 = ((a^2 - x^2)^2 + (b * x)^2) / x^2) by (field; lra). rewrite E. field. split; [lra|].
  intros Z. assert (Z' : (a^2 - x^2)^2 + (b * x)^2 = 0) by (rewrite <- Z; ring). lra.
Qed.
Lemma weighted_peak a b c : 0 < a -> b <> 0 -> 0 < c -> forall x, 0 < x -> x <> a -> weighted a b c x < weighted a b c a.
Proof.
  intros Ha Hb Hc x Hx N. rewrite !weighted_form by assumption. assert (Hb2 : 0 < b^2) by (apply pow2_gt_0; exact Hb).
  assert (S : 0 < ((a^2 - x^2) / x)^2). { apply pow2_gt_0. unfold Rdiv. apply Rmult_integral_contrapositive_currified; [nra|apply Rinv_neq_0_compat; lra]. }
  replace ((a^2 - a^2) / a) with 0 by (field; lra). unfold Rdiv at 1 3. apply Rmult_lt_compat_l; [exact Hc|]. apply Rinv_lt_contravar; [apply Rmult_lt_0_compat; nra|]. lra.
Qed.
(** the weighted curve is above half its maximum exactly on an interval of length |b| *)
Lemma weighted_half a b c : 0 < a -> b <> 0 -> 0 < c -> exists l h, 0 < l < a /\ a < h /\ h - l = Rabs b /\
  forall x, 0 < x -> (weighted a b c a / 2 <= weighted a b c x <-> l <= x <= h).
Proof.
  intros Ha Hb Hc. assert (Hb2 : 0 < b^2) by (apply pow2_gt_0; exact Hb). set (w := Rabs b). assert (Hw : 0 < w) by (apply Rabs_pos_lt; exact Hb). assert (Ew : w^2 = b^2) by apply pow2_abs.
  set (q := sqrt (a^2 + w^2/4)). assert (P : 0 < a^2 + w^2/4) by nra. assert (Q : q^2 = a^2 + w^2/4) by (unfold q; rewrite pow2_sqrt; lra). assert (Hq : 0 < q) by (apply sqrt_lt_R0; exact P).
  assert (F : w / 2 < q) by (apply Rnot_le_lt; intros C; nra). assert (La : q - w/2 < a) by (apply Rnot_le_lt; intros C; nra). assert (Lh : a < q + w/2) by (apply Rnot_le_lt; intros C; nra).
  exists (q - w/2), (q + w/2). split; [lra|]. split; [exact Lh|]. split; [field|]. intros x Hx. rewrite !weighted_form by assumption. replace ((a^2 - a^2) / a) with 0 by (field; lra).
  assert (E : c / (0^2 + b^2) / 2 <= c / (((a^2 - x^2) / x)^2 + b^2) <-> ((a^2 - x^2) / x)^2 <= b^2).
  { assert (S : 0 <= ((a^2 - x^2) / x)^2) by apply pow2_ge_0. set (t := ((a^2 - x^2) / x)^2) in *. replace (c / (0^2 + b^2) / 2) with (c / (2 * b^2)) by (field; nra). unfold Rdiv. split; intros H.
    - apply Rnot_lt_le. intros C. assert (I : / (t + b^2) < / (2 * b^2)) by (apply Rinv_lt_contravar; nra). nra.
    - apply Rmult_le_compat_l; [lra|]. apply Rinv_le_contravar; lra. }
  rewrite E. rewrite <- Ew. assert (T : ((a^2 - x^2) / x)^2 = (a^2 - x^2)^2 / x^2) by (field; lra). rewrite T.
  assert (U : (a^2 - x^2)^2 / x^2 <= w^2 <-> (a^2 - x^2)^2 <= (w * x)^2).
  { assert (0 < x^2) by nra. split; intros H1.
    - replace ((a^2 - x^2)^2) with ((a^2 - x^2)^2 / x^2 * x^2) by (field; lra). replace ((w * x)^2) with (w^2 * x^2) by ring. apply Rmult_le_compat_r; lra.
    - apply Rmult_le_reg_r with (x^2); [assumption|]. replace ((a^2 - x^2)^2 / x^2 * x^2) with ((a^2 - x^2)^2) by (field; lra). replace (w^2 * x^2) with ((w * x)^2) by ring. exact H1. }
  rewrite U. assert (V : (w * x)^2 - (a^2 - x^2)^2 = ((q + w/2) - x) * (x - (q - w/2)) * (x + (q - w/2)) * (x + (q + w/2))).
  { assert (A : a^2 = q^2 - w^2/4) by lra. rewrite A. field. }
  assert (0 < x + (q - w/2)) by lra. assert (0 < x + (q + w/2)) by lra. split; intros H1.
  - assert (G : 0 <= ((q + w/2) - x) * (x - (q - w/2)) * ((x + (q - w/2)) * (x + (q + w/2)))) by (rewrite <- Rmult_assoc, <- V; lra).
    assert (G' : 0 <= ((q + w/2) - x) * (x - (q - w/2))). { apply Rnot_lt_le. intros C. assert (0 < (x + (q - w/2)) * (x + (q + w/2))) by (apply Rmult_lt_0_compat; assumption). nra. }
    split; apply Rnot_lt_le; intros C; nra.
  - assert (0 <= ((q + w/2) - x) * (x - (q - w/2))) by (apply Rmult_le_pos; lra). assert (0 <= ((q + w/2) - x) * (x - (q - w/2)) * (x + (q - w/2)) * (x + (q + w/2))) by (apply Rmult_le_pos; [apply Rmult_le_pos|]; lra). lra.
Qed.
(** on the curve itself the half height of the reported maximum is reached further out *)
Lemma damped_wider a b c d : 0 < a -> b <> 0 -> 2 * b^2 < a^2 -> 0 < c -> exists l h, 0 < l < h /\ Rabs b < h - l /\
  damped a b c d l - d = (damped a b c d a - d) / 2 /\ damped a b c d h - d = (damped a b c d a - d) / 2.
Proof.
  intros Ha Hb Hab Hc. assert (Hb2 : 0 < b^2) by (apply pow2_gt_0; exact Hb). set (w := Rabs b). assert (Hw : 0 < w) by (apply Rabs_pos_lt; exact Hb). assert (Ew : w^2 = b^2) by apply pow2_abs.
  set (D := sqrt (b^2 * b^2 + 4 * a^2 * b^2)). assert (PD : 0 < b^2 * b^2 + 4 * a^2 * b^2) by nra. assert (HD : D^2 = b^2 * b^2 + 4 * a^2 * b^2) by (unfold D; rewrite pow2_sqrt; lra). assert (D0 : 0 < D) by (apply sqrt_lt_R0; exact PD).
  set (yl := (2 * a^2 - b^2 - D) / 2). set (yh := (2 * a^2 - b^2 + D) / 2).
  assert (Yl : 0 < yl). { unfold yl. assert (D < 2 * a^2 - b^2); [|lra]. apply Rnot_le_lt. intros C. nra. }
  assert (Yh : yl < yh) by (unfold yl, yh; lra).
  assert (R : forall y, y = yl \/ y = yh -> 0 < y -> damped a b c d (sqrt y) - d = (damped a b c d a - d) / 2).
  { intros y Hy Py. unfold damped. replace ((b * sqrt y)^2) with (b^2 * (sqrt y)^2) by ring. rewrite pow2_sqrt by lra.
    replace ((a^2 - y)^2 + b^2 * y) with (2 * (a^2 * b^2)). 2:{ destruct Hy as [-> | ->]; unfold yl, yh; nra. } replace ((a^2 - a^2)^2 + (b * a)^2) with (a^2 * b^2) by ring. field. split; [exact Hb|lra]. }
  exists (sqrt yl), (sqrt yh). assert (Sl : 0 < sqrt yl) by (apply sqrt_lt_R0; exact Yl). assert (Slh : sqrt yl < sqrt yh) by (apply sqrt_lt_1; lra).
  split; [lra|]. split; [|split; apply R; [left; reflexivity|lra|right; reflexivity|lra]].
  assert (L2 : (sqrt yl)^2 = yl) by (apply pow2_sqrt; lra). assert (H2 : (sqrt yh)^2 = yh) by (apply pow2_sqrt; lra). set (l := sqrt yl) in *. set (h := sqrt yh) in *.
  assert (LH : (l * h)^2 = a^2 * a^2 - 2 * a^2 * b^2). { replace ((l*h)^2) with (l^2 * h^2) by ring. rewrite L2, H2. unfold yl, yh. nra. }
  apply Rnot_le_lt. intros C. assert (G : (h - l)^2 <= w^2) by nra. replace ((h - l)^2) with (l^2 + h^2 - 2 * (l * h)) in G by ring. rewrite L2, H2, Ew in G. unfold yl, yh in G.
  assert (0 < l * h) by nra. assert (l * h < a^2) by nra. assert (a^2 - b^2 <= l * h) by lra. nra.
Qed.
