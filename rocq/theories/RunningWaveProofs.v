(** C123: the discrete transform of a tone vanishes at an even distance from it in pieces of an even number of samples; polar form. *)
From Verif Require RealToneProofs.
From Verif Require Import SpectraModel SpectraSpec SpectraProofs FftModel FftSpec FftProofs.
From Coq Require Import Lra Lia Permutation.
From Coq Require Import List. Import ListNotations.
Open Scope R_scope.

Lemma csumn_split a b f : csumn (a + b) f = Cplus (csumn a f) (csumn b (fun k => f (a + k)%nat)).
Proof.
  induction b as [|b IH].
  - rewrite Nat.add_0_r, csumn_0. generalize (csumn a f). intros u. cring.
  - rewrite Nat.add_succ_r, !csumn_S, IH. generalize (csumn a f), (csumn b (fun k => f (a + k)%nat)), (f (a + b)%nat). intros. cring.
Qed.
(** the lags of two halves of a piece of 2h samples cancel in pairs *)
Lemma tone_dft_even A h s0 x l e : (1 <= h)%nat -> is_tone A (2 * h) s0 x -> (s0 - l = 2 * e)%Z -> (0 < Z.abs e < Z.of_nat h)%Z -> dft x l = RtoC 0.
Proof.
  intros Hh Hx Hd He. set (n := (2 * h)%nat) in *. assert (Hn : (1 <= n)%nat) by (unfold n; lia). assert (H0 : 0 < INR h) by (apply lt_0_INR; lia).
  assert (En : INR n = 2 * INR h) by (unfold n; rewrite mult_INR; reflexivity).
  assert (Eh : (Z.of_nat n / 2)%Z = Z.of_nat h) by (unfold n; rewrite Nat2Z.inj_mul; change (Z.of_nat 2) with 2%Z; rewrite Z.mul_comm; apply Z.div_mul; lia).
  set (w k := cis (2 * PI * INR k * IZR e / INR h)).
  assert (Es : IZR s0 = IZR l + 2 * IZR e) by (rewrite <- mult_IZR, <- Hd, minus_IZR; ring).
  set (c0 := Cmult (RtoC ((Cmod A) ^ 2)) (cis (- (2 * PI * IZR s0 * INR h / INR n)))).
  assert (T : forall m, (m < n)%nat -> Cmult (acorr x m) (cis (- (2 * PI * INR m * IZR l / INR n))) = Cmult c0 (Cmult (RtoC (weight n m)) (w m))).
  { intros m Hm. rewrite (tone_acorr A n s0) by assumption. rewrite Eh. unfold c0, w.
    replace (2 * PI * INR m * IZR e / INR h) with (2 * PI * IZR s0 * INR m / INR n + - (2 * PI * INR m * IZR l / INR n)) by (rewrite Es, En; field; lra).
    replace (2 * PI * IZR s0 * IZR (Z.of_nat m - Z.of_nat h) / INR n) with (2 * PI * IZR s0 * INR m / INR n + - (2 * PI * IZR s0 * INR h / INR n))
      by (rewrite minus_IZR, <- !INR_IZR_INZ, En; field; lra).
    rewrite !cis_add, RtoC_mult. generalize (cis (2 * PI * IZR s0 * INR m / INR n)), (cis (- (2 * PI * IZR s0 * INR h / INR n))), (cis (- (2 * PI * INR m * IZR l / INR n))), (RtoC (Cmod A ^ 2)), (RtoC (weight n m)). intros. cring. }
  unfold dft. rewrite (proj1 Hx). rewrite (csumn_ext n _ (fun m => Cmult c0 (Cmult (RtoC (weight n m)) (w m)))).
  2:{ intros m Hm. rewrite <- (T m Hm). f_equal. f_equal. field. lra. }
  rewrite csumn_scal.
  replace (csumn n (fun m => Cmult (RtoC (weight n m)) (w m))) with (RtoC 0); [generalize c0; intros u; cring|].
  replace n with (h + h)%nat at 1 by (unfold n; lia). rewrite csumn_split. rewrite <- csumn_plus.
  rewrite (csumn_ext h _ (fun m => Cmult (RtoC (3 / 2)) (w m))).
  - rewrite csumn_scal. unfold w. rewrite root_sum by lia. apply Ceq; cbn; ring.
  - intros m Hm. assert (W : w (h + m)%nat = w m).
    { unfold w. replace (2 * PI * INR (h + m) * IZR e / INR h) with (2 * PI * INR m * IZR e / INR h + 2 * PI * IZR e) by (rewrite plus_INR; field; lra). apply cis_period. }
    rewrite W. assert (S1 : weight n m + weight n (h + m) = 3 / 2).
    { unfold weight. rewrite Eh. replace (n - Z.abs_nat (Z.of_nat m - Z.of_nat h))%nat with (h + m)%nat by (unfold n; lia).
      replace (n - Z.abs_nat (Z.of_nat (h + m) - Z.of_nat h))%nat with (2 * h - m)%nat by (unfold n; lia).
      rewrite minus_INR by lia. rewrite En, plus_INR, mult_INR. cbn [INR]. field. lra. }
    rewrite <- S1, RtoC_plus. generalize (RtoC (weight n m)), (RtoC (weight n (h + m))), (w m). intros. cring.
Qed.
Lemma unit_polar z : Cmod z = 1 -> exists a, z = cis a.
Proof.
  destruct z as [x y]. unfold Cmod. cbn [fst snd]. intros H.
  assert (E : x ^ 2 + y ^ 2 = 1). { rewrite <- (pow2_sqrt (x ^ 2 + y ^ 2)) by nra. rewrite H. ring. }
  assert (B : -1 <= x <= 1) by nra.
  assert (Hs : sin (acos x) = sqrt (1 - Rsqr x)) by (apply sin_acos; exact B).
  assert (Hq : 1 - Rsqr x = Rsqr y) by (unfold Rsqr; nra). rewrite Hq, sqrt_Rsqr_abs in Hs.
  destruct (Rle_dec 0 y) as [P|P].
  - exists (acos x). unfold cis. rewrite (cos_acos x B), Hs, Rabs_pos_eq by exact P. reflexivity.
  - exists (- acos x). unfold cis. rewrite cos_neg, sin_neg, (cos_acos x B), Hs, Rabs_left by lra. f_equal. ring.
Qed.
Lemma polar z : exists a, z = Cmult (RtoC (Cmod z)) (cis a).
Proof.
  destruct (Req_dec (Cmod z) 0) as [E|E].
  - exists 0. apply Cmod_eq_0 in E. subst z. rewrite Cmod_0. apply Ceq; cbn; ring.
  - destruct (unit_polar (Cmult (RtoC (/ Cmod z)) z)) as [a Ha].
    + rewrite Cmod_mult, Cmod_R, Rabs_pos_eq; [field; exact E|]. left. apply Rinv_0_lt_compat. assert (Q := Cmod_ge_0 z). lra.
    + exists a. rewrite <- Ha. rewrite Cmult_assoc, <- RtoC_mult, Rinv_r by exact E. destruct z. apply Ceq; cbn; ring.
Qed.
(** sums over -h .. h *)
Lemma csumn_center (f : Z -> C) h : csumn (2 * h + 1) (fun m => f (Z.of_nat m - Z.of_nat h)%Z) = Cplus (f 0%Z) (csumn h (fun k => Cplus (f (Z.of_nat (S k))) (f (- Z.of_nat (S k))%Z))).
Proof.
  induction h as [|h IH].
  - change (2 * 0 + 1)%nat with 1%nat. rewrite csumn_S, !csumn_0. cbn [Z.of_nat Z.sub Z.add Z.opp]. generalize (f 0%Z). intros u. cring.
  - replace (2 * S h + 1)%nat with (1 + S (2 * h + 1))%nat by lia. rewrite csumn_split. rewrite (csumn_S 0), (csumn_S (2 * h + 1)), csumn_0.
    rewrite (csumn_ext (2 * h + 1) _ (fun m => f (Z.of_nat m - Z.of_nat h)%Z)) by (intros m _; f_equal; lia). rewrite IH, csumn_S.
    replace (Z.of_nat 0 - Z.of_nat (S h))%Z with (- Z.of_nat (S h))%Z by lia. replace (Z.of_nat (1 + (2 * h + 1)) - Z.of_nat (S h))%Z with (Z.of_nat (S h)) by lia.
    generalize (f 0%Z), (f (Z.of_nat (S h))), (f (- Z.of_nat (S h))%Z), (csumn h (fun k => Cplus (f (Z.of_nat (S k))) (f (- Z.of_nat (S k))%Z))). intros. cring.
Qed.
(** the triangle transformed: second differences vanish except in the middle and at the ends *)
Lemma triangle_sum (N th : R) h : N <> 0 ->
  (2 - 2 * cos th) * (1 + rsumn h (fun k => 2 * ((1 - INR (S k) / N) * cos (INR (S k) * th)))) =
  2 / N + 2 * (1 - INR (S h) / N) * cos (INR h * th) - 2 * (1 - INR h / N) * cos (INR (S h) * th).
Proof.
  intros HN. induction h as [|h IH].
  - cbn [INR]. rewrite Rmult_0_l, cos_0, Rmult_1_l. unfold rsumn. cbn. field. exact HN.
  - rewrite rsumn_S. rewrite Rmult_plus_distr_l in IH. 
    replace ((2 - 2 * cos th) * (1 + (rsumn h (fun k => 2 * ((1 - INR (S k) / N) * cos (INR (S k) * th))) + 2 * ((1 - INR (S h) / N) * cos (INR (S h) * th)))))
      with ((2 - 2 * cos th) * 1 + (2 - 2 * cos th) * rsumn h (fun k => 2 * ((1 - INR (S k) / N) * cos (INR (S k) * th))) + (2 - 2 * cos th) * (2 * ((1 - INR (S h) / N) * cos (INR (S h) * th)))) by ring.
    rewrite IH. assert (E : cos (INR (S (S h)) * th) = 2 * cos th * cos (INR (S h) * th) - cos (INR h * th)).
    { rewrite (S_INR (S h)), (S_INR h). replace ((INR h + 1 + 1) * th) with ((INR h + 1) * th + th) by ring. replace (INR h * th) with ((INR h + 1) * th - th) by ring. rewrite cos_plus, cos_minus. ring. }
    rewrite E, (S_INR (S h)), (S_INR h). field. exact HN.
Qed.
(** the transform of a tone at an even distance from it in pieces of an odd number of samples *)
Lemma tone_dft_odd A h s0 x l e : is_tone A (2 * h + 1) s0 x -> (s0 - l = 2 * e)%Z -> (0 < 2 * Z.abs e < Z.of_nat (2 * h + 1))%Z ->
  Cmod (dft x l) = (Cmod A) ^ 2 * (1 / (4 * INR (2 * h + 1) * cos (PI * IZR e / INR (2 * h + 1)) ^ 2)).
Proof.
  intros Hx Hd He. set (n := (2 * h + 1)%nat) in *. assert (Hn : (1 <= n)%nat) by (unfold n; lia). assert (H0 : 0 < INR n) by (apply lt_0_INR; lia).
  assert (En : INR n = 2 * INR h + 1) by (unfold n; rewrite plus_INR, mult_INR; reflexivity).
  assert (Eh : (Z.of_nat n / 2)%Z = Z.of_nat h) by (unfold n; rewrite Nat2Z.inj_add, Nat2Z.inj_mul; change (Z.of_nat 2) with 2%Z; change (Z.of_nat 1) with 1%Z; symmetry; apply (Z.div_unique _ 2 (Z.of_nat h) 1); lia).
  set (th := 2 * PI * IZR (2 * e) / INR n).
  assert (Es : IZR s0 = IZR l + 2 * IZR e) by (rewrite <- mult_IZR, <- Hd, minus_IZR; ring).
  set (c0 := Cmult (RtoC ((Cmod A) ^ 2)) (cis (- (2 * PI * IZR l * INR h / INR n)))).
  set (f := fun z : Z => Cmult (RtoC (1 - Rabs (IZR z) / INR n)) (cis (IZR z * th))).
  assert (T : forall m, (m < n)%nat -> Cmult (acorr x m) (cis (- (2 * PI * INR m * IZR l / INR n))) = Cmult c0 (f (Z.of_nat m - Z.of_nat h)%Z)).
  { intros m Hm. rewrite (tone_acorr A n s0) by assumption. rewrite Eh. unfold c0, f.
    assert (W : weight n m = 1 - Rabs (IZR (Z.of_nat m - Z.of_nat h)) / INR n).
    { unfold weight. rewrite Eh. rewrite minus_INR by (unfold n; lia). rewrite (INR_IZR_INZ (Z.abs_nat _)), Zabs2Nat.id_abs, abs_IZR. field. lra. }
    rewrite <- W. set (z := (Z.of_nat m - Z.of_nat h)%Z).
    replace (2 * PI * IZR s0 * IZR z / INR n) with (IZR z * th + 2 * PI * IZR l * IZR z / INR n) by (unfold th; rewrite Es, mult_IZR; field; lra).
    replace (- (2 * PI * INR m * IZR l / INR n)) with (- (2 * PI * IZR l * IZR z / INR n) + - (2 * PI * IZR l * INR h / INR n)) by (unfold z; rewrite minus_IZR, <- !INR_IZR_INZ; field; lra).
    rewrite !cis_add, RtoC_mult. set (a := 2 * PI * IZR l * IZR z / INR n). assert (U : Cmult (cis a) (cis (- a)) = RtoC 1) by (rewrite <- cis_add, Rplus_opp_r; unfold cis; rewrite cos_0, sin_0; reflexivity).
    transitivity (Cmult (Cmult (Cmult (RtoC (Cmod A ^ 2)) (cis (- (2 * PI * IZR l * INR h / INR n)))) (Cmult (RtoC (weight n m)) (cis (IZR z * th)))) (Cmult (cis a) (cis (- a)))).
    - generalize (cis (IZR z * th)), (cis a), (cis (- a)), (cis (- (2 * PI * IZR l * INR h / INR n))), (RtoC (Cmod A ^ 2)), (RtoC (weight n m)). intros. cring.
    - rewrite U. generalize (Cmult (Cmult (RtoC (Cmod A ^ 2)) (cis (- (2 * PI * IZR l * INR h / INR n)))) (Cmult (RtoC (weight n m)) (cis (IZR z * th)))). intros. cring. }
  unfold dft. rewrite (proj1 Hx). rewrite (csumn_ext n _ (fun m => Cmult c0 (f (Z.of_nat m - Z.of_nat h)%Z))).
  2:{ intros m Hm. rewrite <- (T m Hm). f_equal. f_equal. field. lra. }
  rewrite csumn_scal. unfold n at 1. rewrite csumn_center.
  set (F := 1 + rsumn h (fun k => 2 * ((1 - INR (S k) / INR n) * cos (INR (S k) * th)))).
  assert (EF : Cplus (f 0%Z) (csumn h (fun k => Cplus (f (Z.of_nat (S k))) (f (- Z.of_nat (S k))%Z))) = RtoC F).
  { unfold F. rewrite RtoC_plus. f_equal.
    - unfold f. rewrite Rabs_R0, Rmult_0_l. unfold cis. rewrite cos_0, sin_0. unfold Rdiv. rewrite Rmult_0_l, Rminus_0_r. apply Ceq; cbn; ring.
    - rewrite <- csumn_RtoC. apply csumn_ext. intros k _. unfold f. rewrite opp_IZR, Rabs_Ropp, <- INR_IZR_INZ, Rabs_pos_eq by apply pos_INR.
      replace (- INR (S k) * th) with (- (INR (S k) * th)) by ring. unfold cis. rewrite cos_neg, sin_neg. apply Ceq; cbn [fst snd RtoC Cplus Cmult]; ring. }
  rewrite EF. assert (TR := triangle_sum (INR n) th h ltac:(lra)). fold F in TR.
  set (al := PI * IZR e / INR n). assert (Eth : th = 4 * al) by (unfold th, al; rewrite mult_IZR; field; lra).
  assert (Nal : INR n * al = PI * IZR e) by (unfold al; field; lra).
  assert (C1 : cos (INR h * th) = cos (2 * al)).
  { replace (INR h * th) with (- (2 * al) + 2 * PI * IZR e).
    - replace (cos (- (2 * al) + 2 * PI * IZR e)) with (fst (cis (- (2 * al) + 2 * PI * IZR e))) by reflexivity. rewrite cis_period. cbn [cis fst]. apply cos_neg.
    - rewrite Eth. replace (2 * PI * IZR e) with (2 * (INR n * al)) by (rewrite Nal; ring). rewrite En. ring. }
  assert (C2 : cos (INR (S h) * th) = cos (2 * al)).
  { rewrite S_INR. replace ((INR h + 1) * th) with (2 * al + 2 * PI * IZR e).
    - replace (cos (2 * al + 2 * PI * IZR e)) with (fst (cis (2 * al + 2 * PI * IZR e))) by reflexivity. rewrite cis_period. reflexivity.
    - rewrite Eth. replace (2 * PI * IZR e) with (2 * (INR n * al)) by (rewrite Nal; ring). rewrite En. ring. }
  rewrite C1, C2, S_INR in TR.
  assert (PP := PI_RGT_0).
  assert (Ab : - (PI / 2) < al < PI / 2).
  { assert (B : - INR n < 2 * IZR e < INR n). { rewrite !INR_IZR_INZ, <- opp_IZR, <- mult_IZR. split; apply IZR_lt; lia. }
    unfold al, Rdiv. split; apply (Rmult_lt_reg_r (INR n)); try exact H0; rewrite ?Rmult_assoc, ?Rinv_l, ?Rmult_1_r by lra; nra. }
  assert (Cp : 0 < cos al) by (apply cos_gt_0; lra).
  assert (Sn : sin al <> 0).
  { assert (Hal : al <> 0). { unfold al. intros Z0. apply Rmult_integral in Z0. destruct Z0 as [Z0|Z0]; [|assert (0 < / INR n) by (apply Rinv_0_lt_compat; lra); lra]. apply Rmult_integral in Z0. destruct Z0 as [Z0|Z0]; [lra|]. apply eq_IZR in Z0. lia. }
    destruct (Rtotal_order al 0) as [L|[L|L]]; [|contradiction|apply Rgt_not_eq, sin_gt_0; lra].
    assert (0 < sin (- al)) by (apply sin_gt_0; lra). rewrite sin_neg in H. lra. }
  assert (S4 : sin (2 * al) <> 0) by (rewrite sin_2a; apply Rmult_integral_contrapositive_currified; [apply Rmult_integral_contrapositive_currified; lra|lra]).
  assert (EFv : F = 1 / (4 * INR n * cos al ^ 2)).
  { assert (Hq : 2 - 2 * cos th = 4 * sin (2 * al) ^ 2) by (rewrite Eth; replace (4 * al) with (2 * (2 * al)) by ring; rewrite cos_2a_sin; ring).
    assert (Hr : 2 - 2 * cos (2 * al) = 4 * sin al ^ 2) by (rewrite cos_2a_sin; ring).
    assert (TR2 : 4 * sin (2 * al) ^ 2 * F = (2 - 2 * cos (2 * al)) / INR n) by (rewrite <- Hq, TR; field; lra). rewrite Hr, sin_2a in TR2.
    apply (Rmult_eq_reg_l (16 * sin al ^ 2 * cos al ^ 2)); [|apply Rmult_integral_contrapositive_currified; [apply Rmult_integral_contrapositive_currified; [lra|apply pow_nonzero; exact Sn]|apply pow_nonzero; lra]].
    transitivity (4 * (2 * sin al * cos al) ^ 2 * F); [ring|]. rewrite TR2. field. split; lra. }
  assert (PF : 0 < F). { rewrite EFv. apply Rdiv_lt_0_compat; [lra|]. assert (0 < cos al ^ 2) by (apply pow_lt; exact Cp). nra. }
  rewrite Cmod_mult, Cmod_R, Rabs_pos_eq by lra. unfold c0. rewrite Cmod_mult, cis_mod, Cmod_R, Rabs_pos_eq by apply pow2_ge_0. rewrite EFv. ring.
Qed.
(** the top of the spectrum of a tone, in pieces of an odd number of samples *)
Lemma lag_weight_odd h : lag_weight (2 * h + 1) = (3 * INR (2 * h + 1) ^ 2 + 1) / (4 * INR (2 * h + 1)).
Proof.
  set (n := (2 * h + 1)%nat). assert (En : INR n = 2 * INR h + 1) by (unfold n; rewrite plus_INR, mult_INR; reflexivity). assert (Hh := pos_INR h).
  assert (Eh : (Z.of_nat n / 2)%Z = Z.of_nat h) by (unfold n; rewrite Nat2Z.inj_add, Nat2Z.inj_mul; change (Z.of_nat 2) with 2%Z; change (Z.of_nat 1) with 1%Z; symmetry; apply (Z.div_unique _ 2 (Z.of_nat h) 1); lia).
  set (g := fun z : Z => 1 - IZR (Z.abs z) / INR n).
  assert (E1 : lag_weight n = rsumn n (fun m => g (Z.of_nat m - Z.of_nat h)%Z)).
  { rewrite lag_weight_eq. apply rsumn_ext. intros m Hm. unfold weight, g. rewrite Eh. rewrite INR_IZR_INZ, Nat2Z.inj_sub by lia. rewrite minus_IZR, Zabs2Nat.id_abs, <- INR_IZR_INZ. field. lra. }
  assert (E2 : RtoC (lag_weight n) = RtoC (g 0%Z + rsumn h (fun k => g (Z.of_nat (S k)) + g (- Z.of_nat (S k))%Z))).
  { rewrite E1. rewrite <- csumn_RtoC. unfold n at 1. rewrite (csumn_center (fun z => RtoC (g z))). rewrite RtoC_plus, <- csumn_RtoC. f_equal. apply csumn_ext. intros k _. symmetry. apply RtoC_plus. }
  apply RtoC_inj in E2. rewrite E2.
  assert (E3 : forall k, rsumn k (fun k => g (Z.of_nat (S k)) + g (- Z.of_nat (S k))%Z) = 2 * INR k - INR k * (INR k + 1) / INR n).
  { induction k as [|k IH]; [unfold rsumn; change (INR 0) with 0; cbn [seq map rsum fold_right]; field; lra|]. rewrite rsumn_S, IH. unfold g. rewrite Z.abs_opp, Z.abs_eq by lia. rewrite <- INR_IZR_INZ, S_INR. field. lra. }
  rewrite E3. unfold g. cbn [Z.abs]. rewrite En. field. lra.
Qed.
(** at most a third of it is found at the opposite frequency *)
Lemma opposite_share h s : s <> 0%Z -> (2 * Z.abs s < Z.of_nat (2 * h + 1))%Z ->
  0 < 1 / (4 * INR (2 * h + 1) * cos (PI * IZR s / INR (2 * h + 1)) ^ 2) <= lag_weight (2 * h + 1) / 3.
Proof.
  intros Hs0 Hs. rewrite lag_weight_odd. set (n := (2 * h + 1)%nat) in *.
  assert (H3 : 3 <= INR n) by (change 3 with (IZR 3); rewrite INR_IZR_INZ; apply IZR_le; lia).
  assert (P3 : 3 < PI) by (assert (X := PI2_3_2); lra). assert (P4 := PI_4).
  assert (Ec : cos (PI * IZR s / INR n) = cos (PI * IZR (Z.abs s) / INR n)).
  { destruct (Z.abs_eq_or_opp s) as [E|E]; rewrite E; [reflexivity|]. rewrite opp_IZR. rewrite <- cos_neg. f_equal. field. lra. }
  rewrite Ec. set (k := Z.abs s) in *. assert (K : 1 <= IZR k) by (apply IZR_le; lia). assert (K2 : 2 * IZR k <= INR n - 1) by (change 2 with (IZR 2); change 1 with (IZR 1); rewrite INR_IZR_INZ, <- mult_IZR, <- minus_IZR; apply IZR_le; lia).
  set (a := PI / (2 * INR n)).
  assert (A0 : 0 < a) by (unfold a; apply Rdiv_lt_0_compat; lra).
  assert (A1 : a <= 2 / 3) by (unfold a; apply (Rmult_le_reg_r (2 * INR n)); [lra|]; unfold Rdiv at 1; rewrite Rmult_assoc, Rinv_l by lra; lra).
  assert (A2 : 3 / 2 / INR n <= a) by (unfold a; apply (Rmult_le_reg_r (2 * INR n)); [lra|]; replace (3 / 2 / INR n * (2 * INR n)) with 3 by (field; lra); replace (PI / (2 * INR n) * (2 * INR n)) with PI by (field; lra); lra).
  assert (S1 : 1 / INR n <= sin a).
  { apply Rle_trans with (a - a ^ 3 / 6); [|apply RealToneProofs.sin_cubic; lra]. assert (a ^ 2 <= 4 / 9) by nra. assert (a ^ 3 <= a * (4 / 9)) by nra.
    replace (1 / INR n) with (2 / 3 * (3 / 2 / INR n)) by (field; lra). nra. }
  assert (C1 : sin a <= cos (PI * IZR k / INR n)).
  { rewrite <- cos_shift. assert (B1 : 0 <= PI * IZR k / INR n) by (apply Rmult_le_pos; [nra|left; apply Rinv_0_lt_compat; lra]).
    assert (B2 : PI * IZR k / INR n <= PI / 2 - a).
    { unfold a. apply (Rmult_le_reg_r (2 * INR n)); [lra|]. replace (PI * IZR k / INR n * (2 * INR n)) with (PI * (2 * IZR k)) by (field; lra). replace ((PI / 2 - PI / (2 * INR n)) * (2 * INR n)) with (PI * (INR n - 1)) by (field; lra). apply Rmult_le_compat_l; lra. }
    apply cos_decr_1; lra. }
  set (c := cos (PI * IZR k / INR n)) in *. assert (N0 : 0 < 1 / INR n) by (apply Rdiv_lt_0_compat; lra). assert (CC : (1 / INR n) ^ 2 <= c ^ 2) by (apply pow_incr; lra).
  assert (CP : 0 < c ^ 2) by nra.
  assert (D : 0 < 4 * INR n * c ^ 2) by (apply Rmult_lt_0_compat; lra).
  split; [apply Rdiv_lt_0_compat; lra|]. apply Rle_trans with (INR n / 4).
  - apply (Rmult_le_reg_r (4 * INR n * c ^ 2)); [exact D|]. replace (1 / (4 * INR n * c ^ 2) * (4 * INR n * c ^ 2)) with 1 by (field; lra).
    replace (INR n / 4 * (4 * INR n * c ^ 2)) with (INR n ^ 2 * c ^ 2) by field. apply Rle_trans with (INR n ^ 2 * (1 / INR n) ^ 2); [right; field; lra|]. apply Rmult_le_compat_l; [apply pow2_ge_0|exact CC].
  - apply (Rmult_le_reg_r (12 * INR n)); [lra|]. replace (INR n / 4 * (12 * INR n)) with (3 * INR n ^ 2) by field. replace ((3 * INR n ^ 2 + 1) / (4 * INR n) / 3 * (12 * INR n)) with (3 * INR n ^ 2 + 1) by (field; lra). lra.
Qed.
