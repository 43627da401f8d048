(** C97: bounds, monotony and limits of the thermodynamic functions of dynaphopy/analysis/thermal_properties.py: heat capacity below the Dulong-Petit value
    and tending to it, third law, equipartition bounds on the energy, growth with temperature; and what happens to negative ("imaginary") frequencies. *)
From Verif Require Import ThermalModel ThermalSpec ThermalProofs.
From Coquelicot Require Import Coquelicot.
From Coq Require Import Reals Lra Lia Psatz List.
Open Scope R_scope.

(** ---------- hyperbolic functions ---------- *)
Lemma cosh_gt1 x : 0 < x -> 1 < cosh x.
Proof. intros H. unfold cosh. rewrite exp_Ropp. assert (E := exp_gt1 x H). assert (I : 0 < / exp x) by (apply Rinv_0_lt_compat; lra). assert (P : exp x * / exp x = 1) by (apply Rinv_r; lra). nra. Qed.
Lemma sinh_pos x : 0 < x -> 0 < sinh x.
Proof. intros H. unfold sinh. assert (exp (- x) < exp x) by (apply exp_increasing; lra). lra. Qed.
Lemma grows (f df : R -> R) : f 0 = 0 -> (forall x, is_derive f x (df x)) -> (forall x, 0 < x -> 0 < df x) -> forall x, 0 < x -> 0 < f x.
Proof.
  intros F0 D P x Hx. destruct (MVT_cor2 f df 0 x Hx) as [c [E [C1 C2]]]; [intros c _; apply is_derive_Reals, D|]. rewrite F0 in E. assert (Q := P c C1). nra.
Qed.
Lemma sinh_gt x : 0 < x -> x < sinh x.
Proof.
  intros H. assert (G := grows (fun x => sinh x - x) (fun x => cosh x - 1)). cbv beta in G. apply Rminus_lt_0, G; [rewrite sinh_0; ring| |intros y Hy; assert (C := cosh_gt1 y Hy); lra|exact H].
  intros y. unfold sinh, cosh. auto_derive; [trivial|]. field.
Qed.
Lemma sinh_lt x : 0 < x -> sinh x < x * cosh x.
Proof.
  intros H. assert (G := grows (fun x => x * cosh x - sinh x) (fun x => x * sinh x)). cbv beta in G. apply Rminus_lt_0, G; [rewrite sinh_0; ring| |intros y Hy; assert (C := sinh_pos y Hy); nra|exact H].
  intros y. unfold sinh, cosh. auto_derive; [trivial|]. field.
Qed.
Lemma exp_cube x : 0 < x -> x ^ 3 / 27 < exp x.
Proof. intros H. replace x with (x / 3 + x / 3 + x / 3) at 2 by lra. rewrite !exp_plus. assert (E := exp_ineq1 (x / 3)). assert (1 + x / 3 < exp (x / 3)) by (apply E; lra). set (y := exp (x / 3)) in *. assert (0 < x / 3 < y) by lra.
  replace (x ^ 3 / 27) with (x / 3 * (x / 3) * (x / 3)) by field. assert (x / 3 * (x / 3) < y * y) by nra. assert (0 < x / 3 * (x / 3)) by nra. nra. Qed.

(** ---------- one mode ---------- *)
Section Mode.
Context (t f : R) (Ht : 0 < t) (Hf : 0 < f).
Let x := h_bar * f / (2 * k_b * t).
Lemma xp : 0 < x. Proof. apply x_pos; assumption. Qed.
Lemma z_x : z t f = x + x. Proof. assert (W := two_x t f Ht). fold x in W. rewrite <- W. unfold z. f_equal. ring. Qed.
Lemma cv_form : cv_term t f = k_b * (x / sinh x) ^ 2.
Proof.
  unfold cv_term. destruct (Req_EM_T f 0); [lra|]. assert (E := z_x). rewrite E, exp_plus.
  assert (S := sinh_form t f Ht Hf). fold x in S. assert (Y := y_gt t f Ht Hf). fold x in Y. assert (YY := yy_gt t f Ht Hf). fold x in YY. set (y := exp x) in *.
  replace (sinh x) with ((y * y - 1) / y / 2) by lra. field. split; lra.
Qed.
Lemma energy_form : energy_term t f = k_b * t * (x * cosh x / sinh x).
Proof.
  rewrite energy_def, n_form by assumption. fold x. assert (C := coth_form t f Ht Hf). fold x in C. unfold coth in C. assert (YY := yy_gt t f Ht Hf). fold x in YY.
  replace (x * cosh x / sinh x) with (x * (cosh x / sinh x)) by (unfold Rdiv; ring). rewrite C, hf with (t := t) by assumption. fold x. set (y := exp x) in *. field. lra.
Qed.
Lemma zero_point : h_bar * f / 2 = k_b * t * x. Proof. rewrite hf with (t := t) by assumption. fold x. field. Qed.
Lemma cv_lt : cv_term t f < k_b.
Proof.
  rewrite cv_form. assert (X := xp). assert (S := sinh_gt x X). assert (K := k_pos). assert (Q : 0 < x / sinh x < 1).
  { split; [apply Rdiv_lt_0_compat; lra|]. apply (Rmult_lt_reg_r (sinh x)); [lra|]. unfold Rdiv. rewrite Rmult_assoc, Rinv_l by lra. lra. }
  set (r := x / sinh x) in *. assert (r ^ 2 < 1) by nra. nra.
Qed.
Lemma cv_ge : k_b / cosh x ^ 2 < cv_term t f.
Proof.
  rewrite cv_form. assert (X := xp). assert (S := sinh_pos x X). assert (L := sinh_lt x X). assert (C := cosh_gt1 x X). assert (K := k_pos).
  assert (Q : / cosh x < x / sinh x). { apply (Rmult_lt_reg_r (sinh x * cosh x)); [nra|]. replace (/ cosh x * (sinh x * cosh x)) with (sinh x) by (field; lra). replace (x / sinh x * (sinh x * cosh x)) with (x * cosh x) by (field; lra). exact L. }
  assert (P : 0 < / cosh x) by (apply Rinv_0_lt_compat; lra). unfold Rdiv at 1. rewrite <- pow_inv by lra. apply Rmult_lt_compat_l; [lra|]. nra.
Qed.
Lemma energy_gt : k_b * t < energy_term t f < k_b * t + h_bar * f / 2.
Proof.
  rewrite energy_form, zero_point. assert (X := xp). assert (S := sinh_pos x X). assert (L := sinh_lt x X). assert (G := sinh_gt x X). assert (K := k_pos). assert (KT : 0 < k_b * t) by nra.
  assert (A : 1 < x * cosh x / sinh x < 1 + x).
  { split; apply (Rmult_lt_reg_r (sinh x)); try lra; unfold Rdiv; rewrite Rmult_assoc, Rinv_l by lra; rewrite Rmult_1_r; [lra|].
    assert (E : cosh x - sinh x = exp (- x)) by (unfold cosh, sinh; lra). assert (E1 : exp (- x) < 1). { rewrite <- exp_0. apply exp_increasing. lra. } nra. }
  split; nra.
Qed.
(** low temperatures: t below h f / k *)
Let zz := h_bar * f / (k_b * t).
Lemma zz_x : zz = 2 * x. Proof. unfold zz, x. assert (K := k_pos). field. split; lra. Qed.
Lemma n_small : 1 <= zz -> 0 < n t f <= 54 / zz ^ 3.
Proof.
  intros H. rewrite n_form by assumption. fold x. rewrite <- exp_plus. replace (x + x) with zz by (rewrite zz_x; ring). assert (E := exp_cube zz ltac:(lra)).
  assert (G : 2 <= exp zz). { assert (Q := exp_ineq1 zz ltac:(lra)). lra. }
  split; [apply Rinv_0_lt_compat; lra|]. assert (P : 0 < zz ^ 3) by (apply pow_lt; lra).
  apply Rle_trans with (/ (exp zz / 2)); [apply Rinv_le_contravar; lra|]. replace (54 / zz ^ 3) with (/ (zz ^ 3 / 27 / 2)) by (field; lra). apply Rinv_le_contravar; lra.
Qed.
Lemma energy_low : 1 <= zz -> h_bar * f / 2 < energy_term t f <= h_bar * f / 2 + 54 * (k_b * t).
Proof.
  intros H. rewrite energy_def by assumption. destruct (n_small H) as [N0 N1]. assert (HP := h_pos). assert (HF : 0 < h_bar * f) by nra. split; [nra|].
  apply Rle_trans with (h_bar * f / 2 + h_bar * f * (54 / zz ^ 3)); [nra|]. apply Rplus_le_compat_l. assert (K := k_pos). assert (E : h_bar * f = zz * (k_b * t)) by (unfold zz; field; split; lra).
  rewrite E. replace (zz * (k_b * t) * (54 / zz ^ 3)) with (54 * (k_b * t) * (/ zz * / zz)) by (field; lra). assert (I : 0 < / zz <= 1). { split; [apply Rinv_0_lt_compat; lra|]. rewrite <- Rinv_1. apply Rinv_le_contravar; lra. }
  assert (/ zz * / zz <= 1) by nra. assert (0 < 54 * (k_b * t)) by nra. nra.
Qed.
Lemma cv_low : 1 <= zz -> cv_term t f <= 108 * k_b / zz.
Proof.
  intros H. unfold cv_term. destruct (Req_EM_T f 0); [lra|]. fold (z t f) in zz. change (h_bar * f / (k_b * t)) with (z t f) in zz. fold zz.
  assert (E := exp_cube zz ltac:(lra)). assert (G : 2 <= exp zz) by (assert (Q := exp_ineq1 zz ltac:(lra)); lra). assert (K := k_pos). set (w := exp zz) in *.
  assert (A : w / (w - 1) ^ 2 <= 4 / w). { apply (Rmult_le_reg_r (w * (w - 1) ^ 2)); [apply Rmult_lt_0_compat; [lra|apply pow_lt; lra]|]. replace (w / (w - 1) ^ 2 * (w * (w - 1) ^ 2)) with (w * w) by (field; lra). replace (4 / w * (w * (w - 1) ^ 2)) with (4 * (w - 1) ^ 2) by (field; lra). nra. }
  assert (B : 4 / w <= 108 / zz ^ 3). { replace (108 / zz ^ 3) with (4 / (zz ^ 3 / 27)) by (field; lra). unfold Rdiv at 1 2. apply Rmult_le_compat_l; [lra|]. apply Rinv_le_contravar; [|lra]. assert (0 < zz ^ 3) by (apply pow_lt; lra). lra. }
  replace (k_b * zz ^ 2 * w / (w - 1) ^ 2) with (k_b * zz ^ 2 * (w / (w - 1) ^ 2)) by (unfold Rdiv; ring). replace (108 * k_b / zz) with (k_b * zz ^ 2 * (108 / zz ^ 3)) by (field; lra).
  apply Rmult_le_compat_l; [assert (0 < zz ^ 2) by (apply pow_lt; lra); nra|lra].
Qed.
Lemma ln_lower u : 0 < u -> 1 - / u <= ln u.
Proof. intros H. assert (E := exp_ineq1_le (ln (/ u))). rewrite exp_ln in E by (apply Rinv_0_lt_compat; exact H). rewrite ln_Rinv in E by exact H. lra. Qed.
Lemma entropy_low : 1 <= zz -> entropy_term t f <= 108 * k_b / zz.
Proof.
  intros H. destruct (n_small H) as [N0 N1]. assert (K := k_pos). rewrite <- entropies by assumption. unfold entropy2_term. destruct (Rlt_dec 0 f); [|lra].
  assert (L1 : ln (n t f + 1) <= n t f). { assert (E := exp_ineq1_le (n t f)). rewrite <- (ln_exp (n t f)) at 2. apply Rcomplements.ln_le; lra. }
  assert (L2 : ln (n t f) = ln (n t f + 1) - zz).
  { rewrite n_form by assumption. fold x. rewrite <- exp_plus. replace (x + x) with zz by (rewrite zz_x; ring). assert (G : 1 < exp zz) by (apply exp_gt1; lra).
    replace (/ (exp zz - 1) + 1) with (exp zz / (exp zz - 1)) by (field; lra). rewrite ln_div by lra. rewrite ln_exp, ln_Rinv by lra. ring. }
  rewrite L2. replace (k_b * ((n t f + 1) * ln (n t f + 1) - n t f * (ln (n t f + 1) - zz))) with (k_b * (ln (n t f + 1) + n t f * zz)) by ring.
  apply Rle_trans with (k_b * (n t f * (1 + zz))); [apply Rmult_le_compat_l; lra|].
  replace (108 * k_b / zz) with (k_b * (54 / zz ^ 3 * (2 * zz ^ 2))) by (field; lra). apply Rmult_le_compat_l; [lra|]. apply Rmult_le_compat; [lra|lra|exact N1|nra].
Qed.
Lemma imaginary_energy : energy_term t (- f) = energy_term t f /\ cv_term t (- f) = cv_term t f /\ free_term t (- f) = 0 /\ entropy_term t (- f) = 0.
Proof.
  split; [|split; [|split]].
  - rewrite (energy_def t f Hf). unfold energy_term. destruct (Req_EM_T (- f) 0) as [Z0|Z0]; [lra|]. rewrite (n_form t f Ht). fold x. unfold n. replace (- f * h_bar / (k_b * t)) with (- (x + x)) by (assert (W := two_x t f Ht); fold x in W; rewrite <- W; unfold Rdiv; ring).
    rewrite exp_Ropp, exp_plus. assert (YY := yy_gt t f Ht Hf). fold x in YY. assert (Y := y_gt t f Ht Hf). fold x in Y. set (y := exp x) in *. field. repeat split; try lra; nra.
  - unfold cv_term. destruct (Req_EM_T (- f) 0) as [Z0|Z0]; [lra|]. destruct (Req_EM_T f 0); [lra|]. replace (z t (- f)) with (- z t f) by (unfold z, Rdiv; ring). rewrite exp_Ropp.
    assert (E := z_x). rewrite E, exp_plus. assert (YY := yy_gt t f Ht Hf). fold x in YY. assert (Y := y_gt t f Ht Hf). fold x in Y. set (y := exp x) in *. field. repeat split; try lra; nra.
  - unfold free_term. destruct (Rlt_dec 0 (- f)); [lra|reflexivity].
  - unfold entropy_term. destruct (Rlt_dec 0 (- f)); [lra|reflexivity].
Qed.
End Mode.

Lemma dS_dT t f : 0 < t -> 0 < f -> is_derive (fun t => entropy_term t f) t (cv_term t f / t).
Proof.
  intros Ht Hf. apply (is_derive_ext_loc (fun s => (energy_term s f - free_term s f) / s)).
  - exists (mkposreal t Ht). intros s Hs. apply Rabs_lt_between' in Hs. cbn in Hs. rewrite (F_E_TS s f) by lra. toR. field. lra.
  - assert (D1 := dE_dT t f Ht Hf). assert (D2 := dF_dT t f Ht Hf). assert (E := F_E_TS t f Ht Hf).
    assert (D3 : is_derive (fun s => energy_term s f - free_term s f) t (cv_term t f + entropy_term t f)).
    { replace (cv_term t f + entropy_term t f) with (minus (cv_term t f) (- entropy_term t f)) by (unfold minus, plus, opp; cbn; ring). apply (is_derive_minus (K := R_AbsRing) (V := R_NormedModule)); assumption. }
    replace (cv_term t f / t) with (((cv_term t f + entropy_term t f) * t - (energy_term t f - free_term t f) * 1) / t ^ 2) by (rewrite E; field; lra).
    apply (is_derive_div (fun s => energy_term s f - free_term s f) (fun s => s)); [exact D3|apply (is_derive_id (K := R_AbsRing))|lra].
Qed.
Lemma cv_increases t t' f : 0 < t -> t < t' -> 0 < f -> cv_term t f < cv_term t' f.
Proof.
  intros Ht Htt Hf. rewrite !cv_form by lra. assert (K := k_pos). assert (HP := h_pos). apply Rmult_lt_compat_l; [exact K|].
  assert (X := xp t f Ht Hf). assert (X' := xp t' f ltac:(lra) Hf).
  assert (L : h_bar * f / (2 * k_b * t') < h_bar * f / (2 * k_b * t)). { unfold Rdiv. apply Rmult_lt_compat_l; [nra|]. assert (0 < k_b * t) by nra. assert (k_b * t < k_b * t') by nra. apply Rinv_lt_contravar; [|lra]. apply Rmult_lt_0_compat; nra. }
  set (a := h_bar * f / (2 * k_b * t)) in *. set (b := h_bar * f / (2 * k_b * t')) in *. clearbody a b.
  assert (G : a / sinh a < b / sinh b).
  { destruct (MVT_cor2 (fun y => y / sinh y) (fun y => (1 * sinh y - y * cosh y) / sinh y ^ 2) b a L) as [c [E [C1 C2]]].
    - intros c Hc. apply is_derive_Reals. assert (S := sinh_pos c ltac:(lra)). apply (is_derive_div (fun y => y) sinh); [apply (is_derive_id (K := R_AbsRing))| |lra]. apply is_derive_Reals, derivable_pt_lim_sinh.
    - assert (S := sinh_pos c ltac:(lra)). assert (D := sinh_lt c ltac:(lra)). assert (Q : 0 < sinh c ^ 2) by (apply pow_lt; lra).
      assert (N : (1 * sinh c - c * cosh c) / sinh c ^ 2 < 0). { unfold Rdiv. assert (0 < / sinh c ^ 2) by (apply Rinv_0_lt_compat; lra). nra. }
      nra. }
  assert (P : 0 < a / sinh a) by (apply Rdiv_lt_0_compat; [lra|apply sinh_pos; lra]). nra.
Qed.
Lemma energy_increases t t' f : 0 < t -> t < t' -> 0 < f -> energy_term t f < energy_term t' f.
Proof.
  intros Ht Htt Hf. apply (incr_function (fun s => energy_term s f) 0 p_infty (fun s => cv_term s f)); cbn; try tauto.
  - intros s Hs _. apply dE_dT; assumption.
  - intros s Hs _. apply cv_pos; assumption.
Qed.
Lemma entropy_increases t t' f : 0 < t -> t < t' -> 0 < f -> entropy_term t f < entropy_term t' f.
Proof.
  intros Ht Htt Hf. apply (incr_function (fun s => entropy_term s f) 0 p_infty (fun s => cv_term s f / s)); cbn; try tauto.
  - intros s Hs _. apply dS_dT; assumption.
  - intros s Hs _. apply Rdiv_lt_0_compat; [apply cv_pos; assumption|exact Hs].
Qed.
Lemma zero_terms t : energy_term t 0 = 0 /\ cv_term t 0 = 0 /\ entropy_term t 0 = 0 /\ free_term t 0 = 0.
Proof. unfold energy_term, cv_term, entropy_term, free_term. destruct (Req_EM_T 0 0) as [_|N]; [|exfalso; apply N; reflexivity]. destruct (Rlt_dec 0 0); [lra|]. tauto. Qed.

(** ---------- sums over the grid ---------- *)
Section Grid.
Context (weights : list R -> list R).
Lemma sample_le (g g' : R -> R) xs : forall fr ds, all_nonneg (weights xs) -> all_nonneg ds -> (forall f, In f fr -> g f <= g' f) -> simps weights (sample g fr ds) xs <= simps weights (sample g' fr ds) xs.
Proof.
  unfold simps. generalize (weights xs). intros ws fr. revert ws. induction fr as [|a fr IH]; intros ws ds W D H; [destruct ws; cbn; lra|]. destruct ds as [|d ds]; [destruct ws; cbn; lra|]. destruct ws as [|q ws]; [cbn; lra|].
  inversion W; subst. inversion D; subst. cbn. specialize (IH ws ds H3 H5 (fun f I => H f (or_intror I))). assert (A := H a (or_introl eq_refl)). unfold sample in IH.
  assert (q * (d * g a) <= q * (d * g' a)) by (apply Rmult_le_compat_l; [assumption|]; apply Rmult_le_compat_l; assumption). lra.
Qed.
Lemma sample_const (c : R) fr ds xs : length fr = length ds -> simps weights (sample (fun _ => c) fr ds) xs = c * simps weights ds xs.
Proof.
  intros L. replace (c * simps weights ds xs) with (0 * c + c * simps weights ds xs) by ring. unfold simps. generalize (weights xs). intros ws. revert fr ds L. induction ws as [|q ws IH]; intros fr ds L; [cbn; ring|]. destruct fr as [|a fr]; destruct ds as [|d ds]; try discriminate; cbn; [ring|].
  assert (I := IH fr ds ltac:(cbn in L; lia)). unfold sample in I. rewrite I. ring.
Qed.
(** limits of the weighted sums *)
Lemma sample_limit (F : (R -> Prop) -> Prop) {FF : Filter F} (term : R -> R -> R) (l : R -> R) xs : forall fr ds,
  (forall f, In f fr -> filterlim (fun t => term t f) F (locally (l f))) -> filterlim (fun t => simps weights (sample (term t) fr ds) xs) F (locally (simps weights (sample l fr ds) xs)).
Proof.
  unfold simps. generalize (weights xs). intros ws fr. revert ws. induction fr as [|a fr IH]; intros ws ds H; [destruct ws; cbn; apply filterlim_const|].
  destruct ds as [|d ds]; [destruct ws; cbn; apply filterlim_const|]. destruct ws as [|q ws]; [cbn; apply filterlim_const|].
  cbn. specialize (IH ws ds (fun f I => H f (or_intror I))). unfold sample in IH.
  apply (filterlim_comp_2 (G := locally (q * (d * l a))) (H := locally (fold_right Rplus 0 (map (fun p => fst p * snd p) (combine ws (map (fun p => snd p * l (fst p)) (combine fr ds)))))) (fun t => q * (d * term t a)) (fun t => fold_right Rplus 0 (map (fun p => fst p * snd p) (combine ws (map (fun p => snd p * term t (fst p)) (combine fr ds))))) Rplus).
  - assert (T := H a (or_introl eq_refl)). apply (filterlim_comp _ _ _ (fun t => term t a) (fun y => q * (d * y)) F (locally (l a))); [exact T|].
    assert (C : continuous (fun y : R => q * (d * y)) (l a)) by (apply (ex_derive_continuous (K := R_AbsRing) (V := R_NormedModule)); auto_derive; trivial). exact C.
  - exact IH.
  - exact (filterlim_plus (K := R_AbsRing) (V := R_NormedModule) (q * (d * l a)) _).
Qed.
End Grid.
Lemma scaled_limit (F : (R -> Prop) -> Prop) {FF : Filter F} (g : R -> R) l c : filterlim g F (locally l) -> filterlim (fun t => g t * c) F (locally (l * c)).
Proof.
  intros H. apply (filterlim_comp _ _ _ g (fun y => y * c) F (locally l)); [exact H|].
  assert (C : continuous (fun y : R => y * c) l) by (apply (ex_derive_continuous (K := R_AbsRing) (V := R_NormedModule)); auto_derive; trivial). exact C.
Qed.
(** a bound by a multiple of the temperature below some temperature *)
Lemma low_limit (g : R -> R) (l c t0 : R) : 0 < t0 -> 0 <= c -> (forall t, 0 < t -> t <= t0 -> l <= g t <= l + c * t) -> filterlim g (at_right 0) (locally l).
Proof.
  intros H0 Hc H. intros P [eps HP]. assert (E := cond_pos eps). assert (D : 0 < Rmin t0 (eps / (c + 1))). { apply Rmin_pos; [exact H0|]. apply Rdiv_lt_0_compat; lra. }
  exists (mkposreal _ D). intros t Ht Hpos. apply HP. apply Rabs_lt_between' in Ht. cbn in Ht. destruct Ht as [_ Ht]. rewrite Rplus_0_l in Ht.
  assert (M1 := Rmin_l t0 (eps / (c + 1))). assert (M2 := Rmin_r t0 (eps / (c + 1))). assert (B := H t Hpos ltac:(lra)).
  assert (T : t * (c + 1) < eps). { replace (pos eps) with (eps / (c + 1) * (c + 1)) by (field; lra). apply Rmult_lt_compat_r; lra. }
  change (Rabs (g t - l) < eps). apply Rabs_def1; nra.
Qed.
Lemma zz_low f : 0 < f -> 0 < h_bar * f / k_b /\ forall t, 0 < t -> t <= h_bar * f / k_b -> 1 <= h_bar * f / (k_b * t) /\ k_b / (h_bar * f / (k_b * t)) = k_b * (k_b / (h_bar * f)) * t.
Proof.
  intros Hf. assert (K := k_pos). assert (HP := h_pos). assert (HF : 0 < h_bar * f) by nra. split; [apply Rdiv_lt_0_compat; lra|]. intros t Ht Hle. split.
  - apply (Rmult_le_reg_r (k_b * t)); [nra|]. replace (h_bar * f / (k_b * t) * (k_b * t)) with (h_bar * f) by (field; lra). rewrite Rmult_1_l. apply (Rmult_le_compat_l k_b) in Hle; [|lra]. replace (k_b * (h_bar * f / k_b)) with (h_bar * f) in Hle by (field; lra). exact Hle.
  - field. repeat split; lra.
Qed.
Lemma cv_limit0 f : 0 <= f -> filterlim (fun t => cv_term t f) (at_right 0) (locally 0).
Proof.
  intros Hf. destruct (Req_dec f 0) as [->|N].
  - apply (filterlim_ext (fun _ => 0)); [intros t; symmetry; apply zero_terms|apply filterlim_const].
  - destruct (zz_low f ltac:(lra)) as [T0 Z]. assert (K := k_pos). assert (HP := h_pos). assert (HF : 0 < h_bar * f) by nra. apply (low_limit _ 0 (108 * (k_b * (k_b / (h_bar * f)))) _ T0).
    + assert (0 < k_b / (h_bar * f)) by (apply Rdiv_lt_0_compat; lra). assert (0 < k_b * (k_b / (h_bar * f))) by nra. lra.
    + intros t Ht Hle. destruct (Z t Ht Hle) as [Z1 Z2]. split; [apply Rlt_le, cv_pos; lra|]. rewrite Rplus_0_l. replace (108 * (k_b * (k_b / (h_bar * f))) * t) with (108 * (k_b * (k_b / (h_bar * f)) * t)) by ring. rewrite <- Z2.
      replace (108 * (k_b / (h_bar * f / (k_b * t)))) with (108 * k_b / (h_bar * f / (k_b * t))) by (unfold Rdiv; ring). apply cv_low; lra.
Qed.
Lemma entropy_limit0 f : 0 <= f -> filterlim (fun t => entropy_term t f) (at_right 0) (locally 0).
Proof.
  intros Hf. destruct (Req_dec f 0) as [->|N].
  - apply (filterlim_ext (fun _ => 0)); [intros t; symmetry; apply zero_terms|apply filterlim_const].
  - destruct (zz_low f ltac:(lra)) as [T0 Z]. assert (K := k_pos). assert (HP := h_pos). assert (HF : 0 < h_bar * f) by nra. apply (low_limit _ 0 (108 * (k_b * (k_b / (h_bar * f)))) _ T0).
    + assert (0 < k_b / (h_bar * f)) by (apply Rdiv_lt_0_compat; lra). assert (0 < k_b * (k_b / (h_bar * f))) by nra. lra.
    + intros t Ht Hle. destruct (Z t Ht Hle) as [Z1 Z2]. split; [apply Rlt_le, entropy_pos; lra|]. rewrite Rplus_0_l. replace (108 * (k_b * (k_b / (h_bar * f))) * t) with (108 * (k_b * (k_b / (h_bar * f)) * t)) by ring. rewrite <- Z2.
      replace (108 * (k_b / (h_bar * f / (k_b * t)))) with (108 * k_b / (h_bar * f / (k_b * t))) by (unfold Rdiv; ring). apply entropy_low; lra.
Qed.
Lemma energy_limit0 f : 0 <= f -> filterlim (fun t => energy_term t f) (at_right 0) (locally (h_bar * f / 2)).
Proof.
  intros Hf. destruct (Req_dec f 0) as [->|N].
  - replace (h_bar * 0 / 2) with 0 by field. apply (filterlim_ext (fun _ => 0)); [intros t; symmetry; apply zero_terms|apply filterlim_const].
  - destruct (zz_low f ltac:(lra)) as [T0 Z]. assert (K := k_pos). apply (low_limit _ (h_bar * f / 2) (54 * k_b) _ T0); [lra|].
    intros t Ht Hle. destruct (Z t Ht Hle) as [Z1 _]. assert (E := energy_low t f Ht ltac:(lra) Z1). lra.
Qed.
Lemma cv_limit_infty f : 0 < f -> filterlim (fun t => cv_term t f) (Rbar_locally p_infty) (locally k_b).
Proof.
  intros Hf. assert (K := k_pos). assert (HP := h_pos). assert (HF : 0 < h_bar * f) by nra.
  assert (L : filterlim (fun t => k_b / cosh (h_bar * f / (2 * k_b) * / t) ^ 2) (Rbar_locally p_infty) (locally k_b)).
  { apply (filterlim_comp _ _ _ (fun t => / t) (fun u => k_b / cosh (h_bar * f / (2 * k_b) * u) ^ 2) (Rbar_locally p_infty) (locally 0)).
    - exact (is_lim_inv (fun t => t) p_infty p_infty (is_lim_id p_infty) ltac:(discriminate)).
    - assert (C : continuous (fun u : R => k_b / cosh (h_bar * f / (2 * k_b) * u) ^ 2) 0).
      { apply (ex_derive_continuous (K := R_AbsRing) (V := R_NormedModule)). unfold cosh. auto_derive. rewrite !Rmult_0_r, Ropp_0, exp_0. lra. }
      unfold continuous in C. rewrite Rmult_0_r, cosh_0 in C. replace (k_b / 1 ^ 2) with k_b in C by field. exact C. }
  apply (filterlim_le_le (F := Rbar_locally p_infty)) with (f := fun t => k_b / cosh (h_bar * f / (2 * k_b) * / t) ^ 2) (h := fun _ => k_b) (l := Finite k_b).
  - exists 0. intros t Ht. split.
    + assert (G := cv_ge t f Ht Hf). replace (h_bar * f / (2 * k_b) * / t) with (h_bar * f / (2 * k_b * t)) by (field; split; lra). lra.
    + apply Rlt_le, cv_lt; assumption.
  - exact L.
  - apply filterlim_const.
Qed.

(** ---------- C97 ---------- *)
(** one mode of frequency f at temperature t *)
Theorem C97_mode_bounds : forall t f, 0 < t -> 0 < f ->
  0 < cv_term t f < k_b /\ k_b * t < energy_term t f < k_b * t + h_bar * f / 2 /\ 0 < entropy_term t f.
Proof. intros t f Ht Hf. split; [split; [apply cv_pos; assumption|apply cv_lt; assumption]|]. split; [apply energy_gt; assumption|apply entropy_pos; assumption]. Qed.
Print Assumptions C97_mode_bounds.
(** the integrated quantities, for every non negative density of states and quadrature weights: heat capacity at most the Dulong-Petit value (the number of
    modes times the gas constant), energy at least the classical one, and everything grows with temperature *)
Theorem C97_dulong_petit_bound : forall weights t frequency dos, 0 < t -> good_grid frequency dos -> all_nonneg dos -> all_nonneg (weights frequency) ->
  0 <= get_cv weights t frequency dos <= N_a * k_b * simps weights dos frequency.
Proof.
  intros w t fr ds Ht G D W. split; [apply (signs w t fr ds Ht G D W)|]. unfold get_cv. assert (N := Na_pos). assert (K := k_pos).
  replace (N_a * k_b * simps w ds fr) with (k_b * simps w ds fr * N_a) by ring. rewrite <- (sample_const w k_b fr ds fr (proj1 G)). apply Rmult_le_compat_r; [lra|].
  apply sample_le; [exact W|exact D|]. intros f I. destruct (grid_in _ _ _ G I) as [->|P]; [destruct (zero_terms t) as [_ [-> _]]; lra|]. apply Rlt_le, cv_lt; assumption.
Qed.
Print Assumptions C97_dulong_petit_bound.
Theorem C97_equipartition : forall weights t frequency dos, 0 < t -> good_grid frequency dos -> 0 < hd 1 frequency -> all_nonneg dos -> all_nonneg (weights frequency) ->
  N_a * k_b * t / 1000 * simps weights dos frequency <= get_total_energy weights t frequency dos <=
  N_a * k_b * t / 1000 * simps weights dos frequency + simps weights (sample (fun f => h_bar * f / 2) frequency dos) frequency * N_a / 1000.
Proof.
  intros w t fr ds Ht G P0 D W. assert (N := Na_pos). assert (K := k_pos).
  assert (P : forall f, In f fr -> 0 < f). { intros f I. destruct G as [_ [_ G]]. destruct fr as [|a fr]; [destruct I|]. cbn in P0, G. destruct I as [<-|I]; [exact P0|]. rewrite List.Forall_forall in G. apply G, I. }
  assert (A : simps w (sample (fun _ => k_b * t) fr ds) fr <= simps w (sample (energy_term t) fr ds) fr) by (apply sample_le; [exact W|exact D|]; intros f I; apply Rlt_le, energy_gt; [exact Ht|exact (P f I)]).
  assert (B : simps w (sample (energy_term t) fr ds) fr <= simps w (sample (fun f => k_b * t + h_bar * f / 2) fr ds) fr) by (apply sample_le; [exact W|exact D|]; intros f I; apply Rlt_le, energy_gt; [exact Ht|exact (P f I)]).
  rewrite (sample_const w (k_b * t) fr ds fr (proj1 G)) in A.
  assert (C : simps w (sample (fun f => k_b * t + h_bar * f / 2) fr ds) fr = simps w (sample (fun _ => k_b * t) fr ds) fr + 1 * simps w (sample (fun f => h_bar * f / 2) fr ds) fr).
  { destruct G as [L _]. apply simps_lin; [rewrite !sample_len by exact L; reflexivity|rewrite !sample_len by exact L; reflexivity|]. rewrite sample_len by exact L. intros i Hi. rewrite !sample_nth by assumption. ring. }
  rewrite C, (sample_const w (k_b * t) fr ds fr (proj1 G)) in B. unfold get_total_energy. set (X := simps w (sample (energy_term t) fr ds) fr) in *. set (Y := simps w ds fr) in *. set (Q := simps w (sample (fun f => h_bar * f / 2) fr ds) fr) in *.
  clearbody X Y Q. split; nra.
Qed.
Print Assumptions C97_equipartition.
Theorem C97_grow_with_temperature : forall weights t t' frequency dos, 0 < t -> t < t' -> good_grid frequency dos -> all_nonneg dos -> all_nonneg (weights frequency) ->
  get_cv weights t frequency dos <= get_cv weights t' frequency dos /\ get_entropy weights t frequency dos <= get_entropy weights t' frequency dos /\
  get_total_energy weights t frequency dos <= get_total_energy weights t' frequency dos.
Proof.
  intros w t t' fr ds Ht Htt G D W. assert (N := Na_pos). unfold get_cv, get_entropy, get_total_energy.
  assert (A : forall g, (forall f, 0 < f -> g t f < g t' f) -> (forall s, g s 0 = 0) -> simps w (sample (g t) fr ds) fr <= simps w (sample (g t') fr ds) fr).
  { intros g Hg H0. apply sample_le; [exact W|exact D|]. intros f I. destruct (grid_in _ _ _ G I) as [->|P]; [rewrite !H0; lra|apply Rlt_le, Hg, P]. }
  assert (A1 := A cv_term (fun f => cv_increases t t' f Ht Htt) (fun s => proj1 (proj2 (zero_terms s)))).
  assert (A2 := A entropy_term (fun f => entropy_increases t t' f Ht Htt) (fun s => proj1 (proj2 (proj2 (zero_terms s))))).
  assert (A3 := A energy_term (fun f => energy_increases t t' f Ht Htt) (fun s => proj1 (zero_terms s))).
  split; [apply Rmult_le_compat_r; lra|]. split; [apply Rmult_le_compat_r; lra|]. unfold Rdiv. apply Rmult_le_compat_r; [lra|]. apply Rmult_le_compat_r; lra.
Qed.
Print Assumptions C97_grow_with_temperature.
Theorem C97_strictly_growing : forall t t' f, 0 < t -> t < t' -> 0 < f -> cv_term t f < cv_term t' f /\ entropy_term t f < entropy_term t' f /\ energy_term t f < energy_term t' f.
Proof. intros t t' f Ht Htt Hf. split; [apply cv_increases; assumption|]. split; [apply entropy_increases; assumption|apply energy_increases; assumption]. Qed.
Print Assumptions C97_strictly_growing.
(** limits, whatever the signs of the density and of the weights: heat capacity and entropy vanish at zero temperature, the energy tends to the zero point
    energy, and the heat capacity tends to the Dulong-Petit value at high temperature *)
Theorem C97_third_law : forall weights frequency dos, good_grid frequency dos ->
  filterlim (fun t => get_cv weights t frequency dos) (at_right 0) (locally 0) /\
  filterlim (fun t => get_entropy weights t frequency dos) (at_right 0) (locally 0) /\
  filterlim (fun t => get_total_energy weights t frequency dos) (at_right 0) (locally (simps weights (sample (fun f => h_bar * f / 2) frequency dos) frequency * N_a / 1000)).
Proof.
  intros w fr ds G. assert (P : forall f, In f fr -> 0 <= f) by (intros f I; destruct (grid_in _ _ _ G I) as [->|P]; lra).
  assert (Z : simps w (sample (fun _ => 0) fr ds) fr = 0) by (rewrite sample_const by apply G; ring). split; [|split].
  - assert (A := sample_limit w (at_right 0) cv_term (fun _ => 0) fr fr ds (fun f I => cv_limit0 f (P f I))). rewrite Z in A. unfold get_cv. assert (S := scaled_limit (at_right 0) _ _ N_a A). rewrite Rmult_0_l in S. exact S.
  - assert (A := sample_limit w (at_right 0) entropy_term (fun _ => 0) fr fr ds (fun f I => entropy_limit0 f (P f I))). rewrite Z in A. unfold get_entropy. assert (S := scaled_limit (at_right 0) _ _ N_a A). rewrite Rmult_0_l in S. exact S.
  - assert (A := sample_limit w (at_right 0) energy_term (fun f => h_bar * f / 2) fr fr ds (fun f I => energy_limit0 f (P f I))). exact (scaled_limit (at_right 0) _ _ (/ 1000) (scaled_limit (at_right 0) _ _ N_a A)).
Qed.
Print Assumptions C97_third_law.
Theorem C97_dulong_petit_limit : forall weights frequency dos, good_grid frequency dos -> 0 < hd 1 frequency ->
  is_lim (fun t => get_cv weights t frequency dos) p_infty (N_a * k_b * simps weights dos frequency).
Proof.
  intros w fr ds G P0.
  assert (P : forall f, In f fr -> 0 < f). { intros f I. destruct G as [_ [_ G]]. destruct fr as [|a fr]; [destruct I|]. cbn in P0, G. destruct I as [<-|I]; [exact P0|]. rewrite List.Forall_forall in G. apply G, I. }
  assert (A := sample_limit w (Rbar_locally p_infty) cv_term (fun _ => k_b) fr fr ds (fun f I => cv_limit_infty f (P f I))). rewrite sample_const in A by apply G.
  assert (S := scaled_limit (Rbar_locally p_infty) _ _ N_a A). unfold is_lim, get_cv. replace (N_a * k_b * simps w ds fr) with (k_b * simps w ds fr * N_a) by ring.
  exact S.
Qed.
Print Assumptions C97_dulong_petit_limit.
(** a negative frequency (how phonopy reports an imaginary one) counts as a positive one in the energy and the heat capacity and is left out of the free energy
    and the entropy: F = E - T S fails for it, by its whole energy *)
Theorem C97_imaginary_modes : forall t f, 0 < t -> 0 < f ->
  energy_term t (- f) = energy_term t f /\ cv_term t (- f) = cv_term t f /\ free_term t (- f) = 0 /\ entropy_term t (- f) = 0 /\
  energy_term t (- f) - t * entropy_term t (- f) - free_term t (- f) > k_b * t.
Proof.
  intros t f Ht Hf. destruct (imaginary_energy t f Ht Hf) as [E1 [E2 [E3 E4]]]. repeat split; try assumption. rewrite E1, E3, E4. assert (G := energy_gt t f Ht Hf). lra.
Qed.
Print Assumptions C97_imaginary_modes.
Example C97_nonvacuous : good_grid (1 :: 2 :: 3 :: nil) (1 :: 1 :: 1 :: nil) /\ 0 < hd 1 (1 :: 2 :: 3 :: nil) /\ all_nonneg (1 :: 1 :: 1 :: nil).
Proof. unfold good_grid, all_nonneg. cbn. split; [|split; [lra|]]. - split; [reflexivity|]. split; [lra|]. repeat constructor; lra. - repeat constructor; lra. Qed.
