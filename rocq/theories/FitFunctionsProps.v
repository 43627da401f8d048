(** C32, C33: the reports of the peak fits against the fitted curves. *)
From Verif Require Export FitFunctionsModel FitFunctionsSpec FitFunctionsProofs.
From Verif Require Import FitAsymProofs.
From Coq Require Import Lra.
Open Scope R_scope.

(** C32 for every coefficient vector describing a peak (c/b > 0) that is reported as good.  Missing: coefficient
    vectors with c/b < 0, for which the claim is false (below). *)
Theorem C32_lorentzian_partial : forall a b c d err r, lorentzian_fitting a b c d err = Some r -> 0 < c / b ->
  r_position r = a /\ strict_max (lorentzian a b c d) (r_position r) /\ r_maximum r = lorentzian a b c d (r_position r) - d /\ r_base_line r = d /\
  fwhm_centred (lorentzian a b c d) d (r_position r) (r_width r) /\ integral_R (fun x => lorentzian a b c d x - d) (r_area r).
Proof. exact lor_report. Qed.
(** with b < 0 < c the fit is reported as good although the position is the lowest point of the curve and
    the width and height are negative *)
Theorem C32_dip_refuted : forall a b c d e, b < 0 -> 0 < c -> exists r, lorentzian_fitting a b c d (Fin e) = Some r /\ strict_min (lorentzian a b c d) (r_position r) /\ r_width r < 0 /\ r_maximum r < 0.
Proof. exact lor_dip. Qed.
(** the same curve, with both signs flipped by the optimiser, is rejected *)
Theorem C32_sign_convention_refuted : forall a b c d e, 0 < b -> 0 < c ->
  (forall x, lorentzian a (- b) (- c) d x = lorentzian a b c d x) /\ (exists r, lorentzian_fitting a b c d (Fin e) = Some r) /\ lorentzian_fitting a (- b) (- c) d (Fin e) = None.
Proof. intros a b c d e Hb Hc. split; [intros x; apply lor_flip; lra|exact (lor_flip_report a b c d e Hb Hc)]. Qed.

(** exactly which fits are reported as good: those with an area that is not negative and an error estimate that is not nan.  An infinite error (scipy
    could not estimate the covariance) is reported as good, with an infinite error *)
Theorem C32_accepted : forall a b c d err,
  ((exists r, lorentzian_fitting a b c d err = Some r) <-> err <> NaN /\ 0 <= c /\ (c = 0 -> err <> Fin 0)) /\
  (forall r, lorentzian_fitting a b c d Inf = Some r -> r_error r = Inf) /\
  (forall e r, 0 < c -> lorentzian_fitting a b c d (Fin e) = Some r -> r_error r = Fin (e / sqrt (r_area r))).
Proof.
  intros a b c d err. split; [|split].
  - unfold lorentzian_fitting, finish, div_sqrt. destruct err as [e| |]; cbn.
    + destruct (Rlt_dec c 0) as [H|H]; cbn; [split; [intros [r E]; discriminate E|intros [_ [H' _]]; lra]|].
      destruct (Req_EM_T c 0) as [Hc|Hc]; [destruct (Req_EM_T e 0) as [He|He]|]; cbn.
      * split; [intros [r E]; discriminate E|]. intros [_ [_ H']]. exfalso. apply (H' Hc). rewrite He. reflexivity.
      * split; [|intros _; eexists; reflexivity]. intros _. split; [discriminate|]. split; [lra|]. intros _ E. apply He. congruence.
      * split; [|intros _; eexists; reflexivity]. intros _. split; [discriminate|]. split; [lra|]. intros E. contradiction.
    + destruct (Rlt_dec c 0) as [H|H]; cbn; [split; [intros [r E]; discriminate E|intros [_ [H' _]]; lra]|].
      split; [|intros _; eexists; reflexivity]. intros _. split; [discriminate|]. split; [lra|]. intros _. discriminate.
    + split; [intros [r E]; discriminate E|]. intros [H _]. contradiction.
  - intros r H. apply finish_Some in H. destruct H as [_ [_ [_ [_ [_ [-> H]]]]]]. cbn. destruct (Rlt_dec c 0); [lra|reflexivity].
  - intros e r Hc H. unfold lorentzian_fitting in H. rewrite (finish_good _ _ _ _ _ _ Hc) in H. inversion H. reflexivity.
Qed.

(** C33: zero asymmetry is the symmetric Lorentzian *)
Theorem C33_zero_asymmetry : forall a b c d x, asymmetric a b c d 0 x = lorentzian a b c d x.
Proof. exact asym0. Qed.
(** and is reported with the same position and width, but with the base line added to the maximum *)
Theorem C33_zero_asymmetry_report : forall a b c d x0 xmin xmax err r, 0 < c / b -> asymmetric_fitting a b c d 0 x0 xmax err = Some r ->
  xmin <= x0 <= xmax -> xmin <= a <= xmax -> (forall x, xmin <= x <= xmax -> asymmetric a b c d 0 x <= asymmetric a b c d 0 x0) ->
  r_position r = a /\ r_width r = 2 * b /\ r_maximum r = c / (b * PI) + d.
Proof. exact asym0_report. Qed.
(** asymmetric Lorentzian: position and maximum are those of the curve on the frequency range, provided
    scipy's bounded minimiser returns a minimiser.  Missing: width and area, both of which are refuted below. *)
Theorem C33_asymmetric_partial : forall a b c d s x0 xmin xmax err r, asymmetric_fitting a b c d s x0 xmax err = Some r ->
  xmin <= x0 <= xmax -> (forall x, xmin <= x <= xmax -> asymmetric a b c d s x <= asymmetric a b c d s x0) ->
  xmin <= r_position r <= xmax /\ (forall x, xmin <= x <= xmax -> asymmetric a b c d s x <= asymmetric a b c d s (r_position r)) /\ r_maximum r = asymmetric a b c d s (r_position r).
Proof. exact asym_report. Qed.
(** with any asymmetry the reported width does not describe the half height of the fitted curve: one end of the interval of that width around the
    reported position is strictly below half height (and so the interval is not the part of the curve above half height) *)
Theorem C33_asymmetric_width_refuted : forall a b c d s x0 xmin xmax err r, 0 < b -> 0 < c -> s <> 0 -> asymmetric_fitting a b c d s x0 xmax err = Some r ->
  xmin < x0 < xmax -> (forall x, xmin <= x <= xmax -> asymmetric a b c d s x <= asymmetric a b c d s x0) ->
  (exists x, (x = r_position r + r_width r / 2 \/ x = r_position r - r_width r / 2) /\ asymmetric a b c d s x - d < (asymmetric a b c d s (r_position r) - d) / 2) /\
  ~ fwhm_centred (asymmetric a b c d s) d (r_position r) (r_width r).
Proof.
  intros a b c d s x0 xmin xmax err r Hb Hc Hs H Hx Hm. apply finish_Some in H. destruct H as [_ [-> [-> _]]].
  replace (2 * g_a a b s x0 / 2) with (g_a a b s x0) by lra.
  assert (X : exists x, (x = x0 + g_a a b s x0 \/ x = x0 - g_a a b s x0) /\ asymmetric a b c d s x - d < (asymmetric a b c d s x0 - d) / 2).
  { destruct (Rlt_dec 0 s) as [P|P].
    - eexists. split; [left; reflexivity|]. exact (asym_right a b c d s x0 xmin xmax Hb Hc P Hx Hm).
    - eexists. split; [right; reflexivity|]. exact (asym_left a b c d s x0 xmin xmax Hb Hc ltac:(lra) Hx Hm). }
  split; [exact X|]. destruct X as [x [Ex Lx]]. intros [Hw F]. specialize (F x). destruct F as [_ F].
  assert (Y : Rabs (x - x0) <= 2 * g_a a b s x0 / 2). { destruct Ex as [-> | ->]; [replace (x0 + g_a a b s x0 - x0) with (g_a a b s x0) by ring|replace (x0 - g_a a b s x0 - x0) with (- g_a a b s x0) by ring; rewrite Rabs_Ropp]; rewrite Rabs_pos_eq; lra. }
  specialize (F Y). lra.
Qed.
Print Assumptions C33_asymmetric_width_refuted.
Print Assumptions C32_accepted.
(** damped oscillator: the reported position is never where the fitted curve peaks *)
Theorem C33_damped_position_refuted : forall a b c d xmax err r, damped_fitting a b c d xmax err = Some r -> 0 < a -> b <> 0 -> b^2 < 2 * a^2 -> 0 < c ->
  exists x, 0 < x /\ damped a b c d (r_position r) < damped a b c d x /\ forall y, damped a b c d y <= damped a b c d x.
Proof. intros a b c d xmax err r H Ha Hb Hab Hc. apply finish_Some in H. destruct H as [_ [_ [-> _]]]. exact (damped_not_max a b c d Ha Hb Hab Hc). Qed.
(** and the curve is wider than the reported width *)
Theorem C33_damped_width_refuted : forall a b c d xmax err r, damped_fitting a b c d xmax err = Some r -> 0 < a -> b <> 0 -> 2 * b^2 < a^2 -> 0 < c ->
  exists l h, 0 < l < h /\ r_width r < h - l /\
  damped a b c d l - d = (damped a b c d (r_position r) - d) / 2 /\ damped a b c d h - d = (damped a b c d (r_position r) - d) / 2.
Proof. intros a b c d xmax err r H Ha Hb Hab Hc. apply finish_Some in H. destruct H as [_ [-> [-> _]]]. exact (damped_wider a b c d Ha Hb Hab Hc). Qed.
(** a fit may be reported at a negative frequency: the sign of a does not change the curve *)
Theorem C33_damped_sign_refuted : forall a b c d xmax err r, damped_fitting (- a) b c d xmax err = Some r -> 0 < a ->
  (forall x, damped (- a) b c d x = damped a b c d x) /\ r_position r < 0.
Proof. intros a b c d xmax err r H Ha. apply finish_Some in H. destruct H as [_ [_ [-> _]]]. split; [intros x; apply damped_neg|lra]. Qed.
(** what does hold for the damped oscillator: the maximum is the curve at the reported position, base line
    included, and position and width are those of the curve multiplied by x^2 *)
Theorem C33_damped_partial : forall a b c d xmax err r, damped_fitting a b c d xmax err = Some r -> 0 < a -> b <> 0 -> 0 < c ->
  r_maximum r = damped a b c d (r_position r) /\ r_maximum r = c / (a * b)^2 + d /\
  let weighted := fun x => x^2 * (damped a b c d x - d) in
  (forall x, 0 < x -> x <> r_position r -> weighted x < weighted (r_position r)) /\
  exists l h, 0 < l < r_position r /\ r_position r < h /\ h - l = r_width r /\ forall x, 0 < x -> (weighted (r_position r) / 2 <= weighted x <-> l <= x <= h).
Proof.
  intros a b c d xmax err r H Ha Hb Hc. apply finish_Some in H. destruct H as [-> [-> [-> _]]]. split; [reflexivity|]. split; [apply damped_at; lra|]. cbv zeta.
  assert (E : forall x, x^2 * (damped a b c d x - d) = weighted a b c x) by (intros x; unfold weighted, damped; ring).
  split; [intros x Hx N; rewrite !E; apply weighted_peak; assumption|]. destruct (weighted_half a b c Ha Hb Hc) as [l [h [H1 [H2 [H3 H4]]]]]. exists l, h. split; [exact H1|]. split; [exact H2|]. split; [exact H3|]. intros x Hx. rewrite !E. exact (H4 x Hx).
Qed.

(** the area reported for the asymmetric and the damped curve is not the area of the peak: it is that area between 0 and the last frequency plus the area
    under the base line *)
Lemma RInt_base (f : R -> R) d xmax : (forall x, continuous f x) -> RInt f 0 xmax = RInt (fun x => f x - d) 0 xmax + d * xmax.
Proof.
  intros Hc. assert (Ex : ex_RInt f 0 xmax) by (apply (ex_RInt_continuous (V := R_CompleteNormedModule)); intros z _; apply Hc).
  assert (E : RInt (fun x => f x - d) 0 xmax = RInt f 0 xmax - d * xmax); [|lra].
  apply is_RInt_unique. replace (RInt f 0 xmax - d * xmax) with (minus (RInt f 0 xmax) (scal (xmax - 0) d)) by (unfold minus, plus, opp, scal; cbn; unfold mult; cbn; ring).
  apply (is_RInt_minus (V := R_NormedModule)); [apply (RInt_correct (V := R_CompleteNormedModule)); exact Ex|apply (is_RInt_const (V := R_NormedModule))].
Qed.
Theorem C33_area_includes_base_line_refuted : forall a b c d s x0 xmax err r, b <> 0 ->
  (asymmetric_fitting a b c d s x0 xmax err = Some r -> r_area r = RInt (fun x => asymmetric a b c d s x - d) 0 xmax + d * xmax) /\
  (a <> 0 -> damped_fitting a b c d xmax err = Some r -> r_area r = RInt (fun x => damped a b c d x - d) 0 xmax + d * xmax).
Proof.
  intros a b c d s x0 xmax err r Hb. assert (P := PI_RGT_0). split.
  - intros H. apply finish_Some in H. destruct H as [_ [_ [_ [-> _]]]]. apply RInt_base. intros x.
    apply (ex_derive_continuous (K := R_AbsRing) (V := R_NormedModule)). unfold asymmetric, g_a. assert (E := exp_pos (s * (x - a))). set (e := exp (s * (x - a))) in E.
    assert (G : 2 * b / (1 + e) <> 0). { intros Z. apply Rmult_integral in Z. destruct Z as [Z|Z]; [lra|]. assert (0 < / (1 + e)) by (apply Rinv_0_lt_compat; lra). lra. }
    assert (Q : 0 <= ((x - a) / (2 * b / (1 + e)))^2) by apply pow2_ge_0.
    auto_derive. fold (Rminus x a). fold e. split; [lra|]. split; [lra|]. split; [exact G|]. split; [|exact I].
    apply Rmult_integral_contrapositive_currified; [apply Rmult_integral_contrapositive_currified; [lra|exact G]|].
    assert (Q' : 0 <= (x - a) * / (2 * b * / (1 + e)) * ((x - a) * / (2 * b * / (1 + e)) * 1)) by exact Q. lra.
  - intros Ha H. apply finish_Some in H. destruct H as [_ [_ [_ [-> _]]]]. apply RInt_base. intros x.
    apply (ex_derive_continuous (K := R_AbsRing) (V := R_NormedModule)). unfold damped. assert (D := damped_den a b x Ha Hb). auto_derive. lra.
Qed.
Print Assumptions C33_area_includes_base_line_refuted.

Print Assumptions C32_lorentzian_partial.
Print Assumptions C32_dip_refuted.
Print Assumptions C32_sign_convention_refuted.
Print Assumptions C33_zero_asymmetry.
Print Assumptions C33_zero_asymmetry_report.
Print Assumptions C33_asymmetric_partial.
Print Assumptions C33_damped_position_refuted.
Print Assumptions C33_damped_width_refuted.
Print Assumptions C33_damped_sign_refuted.
Print Assumptions C33_damped_partial.

(** an ordinary peak is reported as good *)
Example C32_nonvacuous : exists r, lorentzian_fitting 5 (1/10) 3 (1/2) (Fin 1) = Some r /\ 0 < 3 / (1/10) /\ r_width r = 2 * (1/10).
Proof. eexists. split; [apply finish_good; lra|]. split; [lra|reflexivity]. Qed.
(** damped oscillator whose integral is positive: with c > 0 and d = 0 the fit is good *)
Example C33_nonvacuous : exists r, damped_fitting 5 1 3 0 10 (Fin 1) = Some r /\ 2 * 1^2 < 5^2.
Proof.
  eexists. split; [|lra]. apply finish_good. apply RInt_gt_0; [lra| |].
  - intros x _. unfold damped. rewrite Rplus_0_r. apply Rdiv_lt_0_compat; [lra|apply damped_den; lra].
  - intros x _. apply (ex_derive_continuous (K := R_AbsRing) (V := R_NormedModule)). unfold damped. auto_derive. assert (D := damped_den 5 1 x ltac:(lra) ltac:(lra)). lra.
Qed.
(** the hypotheses of C33_asymmetric_width_refuted are met by an ordinary asymmetric peak at 5 THz, fitted on [0, 10] *)
Example C33_width_nonvacuous : exists x0 r, asymmetric_fitting 5 1 1 0 1 x0 10 (Fin 1) = Some r /\ 0 < x0 < 10 /\
  forall x, 0 <= x <= 10 -> asymmetric 5 1 1 0 1 x <= asymmetric 5 1 1 0 1 x0.
Proof.
  assert (P := PI_RGT_0).
  assert (Ct : forall x, continuous (asymmetric 5 1 1 0 1) x).
  { intros x. apply (ex_derive_continuous (K := R_AbsRing) (V := R_NormedModule)).
    apply ex_derive_ext with (fun x => 1 / PI * pk 1 1 (x - 5) + 0).
    - intros t. replace t with (5 + (t - 5)) at 2 by ring. symmetry. apply asym_pk. lra.
    - apply (ex_derive_plus (K := R_AbsRing) (V := R_NormedModule)); [|apply ex_derive_const]. apply ex_derive_scal.
      apply (ex_derive_comp (K := R_AbsRing) (V := R_NormedModule) (pk 1 1) (fun x => x - 5)); [eexists; apply pk_derive; lra|auto_derive; exact I]. }
  assert (V : forall x, asymmetric 5 1 1 0 1 x = 1 / PI * pk 1 1 (x - 5)).
  { intros x. replace x with (5 + (x - 5)) at 1 by ring. rewrite asym_pk by lra. ring. }
  assert (K : 0 < 1 / PI) by (apply Rdiv_lt_0_compat; lra).
  destruct (continuity_ab_maj (asymmetric 5 1 1 0 1) 0 10 ltac:(lra)) as [x0 [M I0]].
  { intros x _. apply continuity_pt_filterlim. apply Ct. }
  assert (E5 : asymmetric 5 1 1 0 1 5 = 1 / PI). { rewrite V. unfold pk, gw. replace (5 - 5) with 0 by ring. rewrite Rmult_0_r, exp_0. field. lra. }
  assert (En : forall x, (x - 5)^2 = 25 -> asymmetric 5 1 1 0 1 x < 1 / PI).
  { intros x Hx. rewrite V. assert (B : pk 1 1 (x - 5) < 1); [|nra]. assert (G := gw_pos 1 1 (x - 5) ltac:(lra)). unfold pk. rewrite Hx. set (g := gw 1 1 (x - 5)) in *.
    apply Rmult_lt_reg_r with (g^2 + 25); [nra|]. replace (g / (g^2 + 25) * (g^2 + 25)) with g by (field; nra). nra. }
  assert (I1 : 0 < x0 < 10).
  { assert (M5 := M 5 ltac:(lra)). assert (A0 := En 0 ltac:(lra)). assert (A1 := En 10 ltac:(lra)).
    split; [destruct (Req_dec x0 0) as [Z|Z]; [rewrite Z in M5|]; lra|destruct (Req_dec x0 10) as [Z|Z]; [rewrite Z in M5|]; lra]. }
  exists x0. eexists. split; [|split; [exact I1|exact M]]. apply finish_good. apply RInt_gt_0; [lra| |intros x _; apply Ct].
  intros x _. rewrite V. apply Rmult_lt_0_compat; [exact K|]. unfold pk. apply Rdiv_lt_0_compat; [apply gw_pos; lra|apply pk_den; lra].
Qed.
