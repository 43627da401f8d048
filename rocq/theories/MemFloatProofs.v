From Verif Require Import MemModel MemSpec MemProofs MemFloatModel.
From Flocq Require Import Core BinarySingleNaN Relative.
From Coq Require Import Reals ZArith List Lra Lia Psatz.
Open Scope R_scope.

(** ---------- with exact arithmetic the generic program is the model MemModel ---------- *)
Lemma for_sim {S1 S2} (f : S1 -> S2) b1 b2 : forall n a s, (forall i s, b2 i (f s) = option_map f (b1 i s)) -> for_ a n b2 (f s) = option_map f (for_ a n b1 s).
Proof.
  induction n as [|n IH]; intros a s H; cbn [for_]; [reflexivity|]. rewrite H. destruct (b1 a s) as [s1|]; cbn [option_map bind]; [apply IH, H|reflexivity].
Qed.
Lemma for_same {S} (b1 b2 : nat -> S -> option S) n a s : (forall i s, b2 i s = b1 i s) -> for_ a n b2 s = for_ a n b1 s.
Proof. intros H. revert a s. induction n as [|n IH]; intros a s; cbn [for_]; [reflexivity|]. rewrite H. destruct (b1 a s); cbn [bind]; [apply IH|reflexivity]. Qed.
Lemma bind_ext {A B} (o : option A) (f g : A -> option B) : (forall a, f a = g a) -> bind o f = bind o g.
Proof. intros H. destruct o; cbn [bind]; [apply H|reflexivity]. Qed.
Definition conv_state (s : mstate) : gstate R := MkG (m_wk1 s) (m_wk2 s) (m_wkm s) (m_coef s) (m_msd s).
Definition conv (r : mrun) : grun R := match r with Go s => GGo (conv_state s) | Ret x c => GRet x c end.
Lemma option_map_bind {A B C} (o : option A) (f : A -> option B) (h : B -> C) : option_map h (bind o f) = bind o (fun a => option_map h (f a)).
Proof. destruct o; reflexivity. Qed.
Lemma exact_power data N : g_power exact data N = mem_power data N.
Proof. unfold g_power, mem_power. apply for_same. intros i s. apply bind_ext. intros x. cbn. f_equal. unfold square. cbn. ring. Qed.
Lemma exact_sums N k a b : g_sums exact N k a b = mem_sums N k a b.
Proof. unfold g_sums, mem_sums. apply for_same. intros i s. apply bind_ext. intros x. apply bind_ext. intros y. cbn. f_equal. f_equal. unfold square. cbn. ring. Qed.
Lemma exact_iter N M k r : g_iter exact N M k (conv r) = option_map conv (mem_iter N M k r).
Proof.
  destruct r as [s|x c]; [|reflexivity]. cbn [conv g_iter mem_iter]. unfold conv_state. cbn [g_wk1 g_wk2 g_wkm g_coef g_msd]. rewrite exact_sums, option_map_bind. apply bind_ext. intros nd.
  cbn [less fabs tiny exact]. destruct (Rlt_dec (Rabs (snd nd)) (1 / 1000000)); [reflexivity|]. cbv zeta. rewrite option_map_bind.
  replace (g_reflection exact nd) with (2 * fst nd / snd nd) by reflexivity. apply bind_ext. intros coef.
  replace (g_discrepancy exact (m_msd s) (2 * fst nd / snd nd)) with (m_msd s * (1 - (2 * fst nd / snd nd) ^ 2)).
  2:{ unfold g_discrepancy, square. cbn [mul sub one exact]. f_equal. f_equal. ring. }
  rewrite option_map_bind. change (g_coefs exact k (m_wkm s) coef) with (mem_coefs k (m_wkm s) coef). apply bind_ext. intros c2.
  destruct (k =? M); [reflexivity|]. rewrite option_map_bind. change (g_save k (m_wkm s) c2) with (mem_save k (m_wkm s) c2). apply bind_ext. intros wkm.
  rewrite option_map_bind. change (g_update exact N k wkm (m_wk1 s) (m_wk2 s)) with (mem_update N k wkm (m_wk1 s) (m_wk2 s)). apply bind_ext. intros w. reflexivity.
Qed.
Lemma exact_coefficients data N M : g_coefficients exact data N M = GetCoefficients data N M.
Proof.
  unfold g_coefficients, GetCoefficients. rewrite exact_power. apply bind_ext. intros p. change (g_fill data N) with (mem_fill data N). apply bind_ext. intros w.
  change (GGo (MkG (fst w) (snd w) (malloc M) (malloc (M + 1)) (div exact p (of_int exact N)))) with (conv (Go (MkM (fst w) (snd w) (malloc M) (malloc (M + 1)) (p / INR N)))).
  rewrite (for_sim conv (mem_iter N M) (g_iter exact N M)) by apply exact_iter. destruct (for_ 1 M (mem_iter N M) _) as [[s|x c]|]; reflexivity.
Qed.

(** ---------- rounding ---------- *)
Notation rnd := (round radix2 (FLT_exp (-1074) 53) ZnearestE).
Definition u : R := bpow radix2 (-53).
Definition eta : R := bpow radix2 (-1075).
Lemma u_pos : 0 < u. Proof. apply bpow_gt_0. Qed.
Lemma eta_pos : 0 < eta. Proof. apply bpow_gt_0. Qed.
Lemma u_small : u <= / 1000000. Proof. unfold u. cbn. lra. Qed.
Lemma eta_half : eta = / 2 * bpow radix2 (-1074).
Proof. unfold eta. change (-1075)%Z with (-1 + -1074)%Z. rewrite bpow_plus. f_equal. Qed.
Lemma rnd_err x : exists e h, Rabs e <= u /\ Rabs h <= eta /\ rnd x = x * (1 + e) + h.
Proof.
  destruct (relative_error_N_FLT'_ex radix2 (-1074) 53 ltac:(reflexivity) (fun x => negb (Z.even x)) x) as [e [h [He [Hh [_ E]]]]].
  exists e, h. repeat split; [|rewrite eta_half; exact Hh|exact E].
  - eapply Rle_trans; [exact He|]. assert (U : u_ro radix2 53 = u) by (unfold u_ro, u; cbn; lra). rewrite U. pose proof u_pos. apply Rmult_le_reg_r with (1 + u); [lra|]. unfold Rdiv. rewrite Rmult_assoc, Rinv_l by lra. nra.
Qed.
Lemma rnd_upper x : Rabs (rnd x) <= Rabs x * (1 + u) + eta.
Proof.
  destruct (rnd_err x) as [e [h [He [Hh ->]]]]. eapply Rle_trans; [apply Rabs_triang|]. apply Rplus_le_compat; [|exact Hh]. rewrite Rabs_mult.
  apply Rmult_le_compat_l; [apply Rabs_pos|]. eapply Rle_trans; [apply Rabs_triang|]. rewrite Rabs_R1. lra.
Qed.
Lemma rnd_lower x : 0 <= x -> x * (1 - u) - eta <= rnd x.
Proof.
  intros Hx. destruct (rnd_err x) as [e [h [He [Hh ->]]]]. assert (-u <= e) by (unfold Rabs in He; destruct (Rcase_abs e); lra). assert (- eta <= h) by (unfold Rabs in Hh; destruct (Rcase_abs h); lra). nra.
Qed.
Lemma rnd_mono x y : x <= y -> rnd x <= rnd y.
Proof. apply round_le; [apply FLT_exp_valid; reflexivity|apply valid_rnd_N]. Qed.
Lemma rnd_0 : rnd 0 = 0. Proof. apply round_0. apply valid_rnd_N. Qed.
Lemma rnd_1 : rnd 1 = 1.
Proof. apply round_generic; [apply valid_rnd_N|]. change 1 with (bpow radix2 0). apply generic_format_bpow. cbn. lia. Qed.
Lemma rnd_nonneg x : 0 <= x -> 0 <= rnd x. Proof. intros H. rewrite <- rnd_0. apply rnd_mono, H. Qed.

(** ---------- floating operations whose result is finite ---------- *)
Notation fin := (is_finite (prec := 53) (emax := 1024)).
Notation val := (B2R (prec := 53) (emax := 1024)).
Lemma overflow_not_finite (x : float64) s : B2SF x = binary_overflow 53 1024 mode_NE s -> fin x = false.
Proof. intros H. rewrite <- is_finite_SF_B2SF, H. reflexivity. Qed.
Lemma plus_fin (x y : float64) : fin (Bplus mode_NE x y) = true -> fin x = true /\ fin y = true /\ val (Bplus mode_NE x y) = rnd (val x + val y).
Proof.
  intros F. assert (Fx : fin x = true) by (destruct x as [s|s| |s m e H]; destruct y as [s'|s'| |s' m' e' H']; try reflexivity; cbn in F; try discriminate; destruct (Bool.eqb s s'); discriminate).
  assert (Fy : fin y = true) by (destruct x as [s|s| |s m e H]; destruct y as [s'|s'| |s' m' e' H']; try reflexivity; cbn in F; try discriminate; destruct (Bool.eqb s s'); discriminate).
  split; [exact Fx|]. split; [exact Fy|]. pose proof (Bplus_correct 53 1024 _ _ mode_NE x y Fx Fy) as H. destruct (Rlt_bool _ _).
  - apply H.
  - exfalso. destruct H as [H _]. apply overflow_not_finite in H. congruence.
Qed.
Lemma minus_fin (x y : float64) : fin (Bminus mode_NE x y) = true -> fin x = true /\ fin y = true /\ val (Bminus mode_NE x y) = rnd (val x - val y).
Proof.
  intros F. assert (Fx : fin x = true) by (destruct x as [s|s| |s m e H]; destruct y as [s'|s'| |s' m' e' H']; try reflexivity; cbn in F; try discriminate; destruct (Bool.eqb s (negb s')); discriminate).
  assert (Fy : fin y = true) by (destruct x as [s|s| |s m e H]; destruct y as [s'|s'| |s' m' e' H']; try reflexivity; cbn in F; try discriminate; destruct (Bool.eqb s (negb s')); discriminate).
  split; [exact Fx|]. split; [exact Fy|]. pose proof (Bminus_correct 53 1024 _ _ mode_NE x y Fx Fy) as H. destruct (Rlt_bool _ _).
  - apply H.
  - exfalso. destruct H as [H _]. apply overflow_not_finite in H. congruence.
Qed.
Lemma mult_fin (x y : float64) : fin (Bmult mode_NE x y) = true -> fin x = true /\ fin y = true /\ val (Bmult mode_NE x y) = rnd (val x * val y).
Proof.
  intros F. assert (Fx : fin x = true /\ fin y = true) by (destruct x as [s|s| |s m e H]; destruct y as [s'|s'| |s' m' e' H']; split; try reflexivity; cbn in F; discriminate).
  split; [apply Fx|]. split; [apply Fx|]. pose proof (Bmult_correct 53 1024 _ _ mode_NE x y) as H. destruct (Rlt_bool _ _); [apply H|]. exfalso. apply overflow_not_finite in H. congruence.
Qed.
Lemma div_fin (x y : float64) : fin (Bdiv mode_NE x y) = true -> fin x = true /\ ((fin y = true /\ val y <> 0 /\ val (Bdiv mode_NE x y) = rnd (val x / val y)) \/ (fin y = false /\ val (Bdiv mode_NE x y) = 0)).
Proof.
  intros F. assert (Fx : fin x = true) by (destruct x as [s|s| |s m e H]; destruct y as [s'|s'| |s' m' e' H']; try reflexivity; cbn in F; discriminate).
  split; [exact Fx|]. destruct (fin y) eqn:Fy.
  - left. split; [reflexivity|]. assert (N : val y <> 0).
    { destruct y as [s'|s'| |s' m' e' H']; try discriminate; [destruct x; discriminate|]. intros Z. cbn in Z. apply eq_0_F2R in Z. destruct s'; discriminate. }
    split; [exact N|]. pose proof (Bdiv_correct 53 1024 _ _ mode_NE x y N) as H. destruct (Rlt_bool _ _); [apply H|]. exfalso. apply overflow_not_finite in H. congruence.
  - right. split; [reflexivity|]. destruct x as [s|s| |s m e H]; destruct y as [s'|s'| |s' m' e' H']; try discriminate; reflexivity.
Qed.

(** ---------- the sums ---------- *)
Lemma sum_step_bound (N D a b j G : R) : 0 <= j -> 1 + 4 * u <= G -> 0 <= D -> Rabs N <= G * (D / 2 + 8 * j * eta) ->
  let d := rnd (rnd (a * a) + rnd (b * b)) in
  0 <= rnd (D + d) /\ Rabs (rnd (N + rnd (a * b))) <= G * (1 + 4 * u) * (rnd (D + d) / 2 + 8 * (j + 1) * eta).
Proof.
  intros Hj HG HD HN d. pose proof u_pos as U0. pose proof u_small as U1. pose proof eta_pos as E0.
  assert (Sa : 0 <= a * a) by nra. assert (Sb : 0 <= b * b) by nra.
  assert (La := rnd_lower _ Sa). assert (Lb := rnd_lower _ Sb). assert (Pa := rnd_nonneg _ Sa). assert (Pb := rnd_nonneg _ Sb).
  assert (Ld := rnd_lower (rnd (a * a) + rnd (b * b)) ltac:(lra)). fold d in Ld. assert (Pd : 0 <= d) by (apply rnd_nonneg; lra).
  assert (LD := rnd_lower (D + d) ltac:(lra)). assert (PD : 0 <= rnd (D + d)) by (apply rnd_nonneg; lra). split; [exact PD|].
  set (D' := rnd (D + d)) in *. set (q := a * a + b * b).
  assert (Q : q * ((1 - u) * (1 - u)) - 3 * eta <= d).
  { eapply Rle_trans; [|exact Ld]. assert (X : (a * a * (1 - u) - eta + (b * b * (1 - u) - eta)) * (1 - u) <= (rnd (a * a) + rnd (b * b)) * (1 - u)) by (apply Rmult_le_compat_r; lra).
    unfold q. nra. }
  assert (T : Rabs (rnd (a * b)) <= (1 + 4 * u) * (d / 2 + 4 * eta)).
  { eapply Rle_trans; [apply rnd_upper|]. assert (AB : Rabs (a * b) <= q / 2) by (unfold q; pose proof (Rle_0_sqr (a - b)); pose proof (Rle_0_sqr (a + b)); unfold Rsqr in *; apply Rabs_le; split; lra).
    assert (q0 : 0 <= q) by (unfold q; lra).
    assert (X : Rabs (a * b) * (1 + u) <= q / 2 * (1 + u)) by (apply Rmult_le_compat_r; lra).
    assert (Y : q * (1 + u) <= q * ((1 + 4 * u) * ((1 - u) * (1 - u)))) by (apply Rmult_le_compat_l; [exact q0|nra]).
    assert (Z : (1 + 4 * u) * (q * ((1 - u) * (1 - u))) <= (1 + 4 * u) * (d + 3 * eta)) by (apply Rmult_le_compat_l; lra).
    nra. }
  assert (T' : Rabs (rnd (a * b)) <= G * (d / 2 + 4 * eta)) by (eapply Rle_trans; [exact T|]; apply Rmult_le_compat_r; lra).
  eapply Rle_trans; [apply rnd_upper|].
  assert (Ab : Rabs (N + rnd (a * b)) <= G * ((D + d) / 2 + (8 * j + 4) * eta)).
  { eapply Rle_trans; [apply Rabs_triang|]. eapply Rle_trans; [apply Rplus_le_compat; [exact HN|exact T']|]. right. field. }
  assert (X : Rabs (N + rnd (a * b)) * (1 + u) <= G * ((D + d) / 2 + (8 * j + 4) * eta) * (1 + u)) by (apply Rmult_le_compat_r; lra).
  assert (Y : (1 + u) * ((D + d) / 2 + (8 * j + 4) * eta) + eta <= (1 + 4 * u) * (D' / 2 + 8 * (j + 1) * eta)).
  { assert (S0 : 0 <= D + d) by lra. assert (Y1 : (1 + 4 * u) * (((D + d) * (1 - u) - eta) / 2) <= (1 + 4 * u) * (D' / 2)) by (apply Rmult_le_compat_l; lra).
    assert (Y2 : (D + d) * (1 + u) <= (D + d) * ((1 + 4 * u) * (1 - u))) by (apply Rmult_le_compat_l; [exact S0|nra]).
    assert (Y3 : 0 <= j * eta) by nra. nra. }
  assert (Z : G * ((1 + u) * ((D + d) / 2 + (8 * j + 4) * eta) + eta) <= G * ((1 + 4 * u) * (D' / 2 + 8 * (j + 1) * eta))) by (apply Rmult_le_compat_l; lra).
  nra.
Qed.

Lemma pow_ge_1 x n : 1 <= x -> 1 <= x ^ n.
Proof. intros H. induction n as [|n IH]; cbn [pow]; [lra|]. nra. Qed.
Lemma pow_ge_x x n : 1 <= x -> (1 <= n)%nat -> x <= x ^ n.
Proof. intros H Hn. destruct n as [|n]; [lia|]. cbn [pow]. pose proof (pow_ge_1 x n H). nra. Qed.
Lemma literal_0 : literal 0 0 = B754_zero false. Proof. reflexivity. Qed.
Lemma val_1 : val (literal 1 0) = 1. Proof. unfold literal. cbn. unfold F2R. cbn. lra. Qed.
Lemma val_2 : val (literal 2 0) = 2. Proof. unfold literal. cbn. unfold F2R. cbn. lra. Qed.
Lemma val_tiny : bpow radix2 (-20) <= val (literal 4722366482869645 (-72)) /\ fin (literal 4722366482869645 (-72)) = true.
Proof. unfold literal. cbn. unfold F2R. cbn. split; [lra|reflexivity]. Qed.

(** the invariant of the two sums after j terms *)
Definition sums_ok (j : nat) (nd : float64 * float64) : Prop :=
  fin (fst nd) = true -> fin (snd nd) = true ->
  0 <= val (snd nd) /\ Rabs (val (fst nd)) <= (1 + 4 * u) ^ S j * (val (snd nd) / 2 + 8 * INR j * eta).
Lemma sums_bound N k wk1 wk2 nd : g_sums ieee N k wk1 wk2 = Some nd -> sums_ok (N - k) nd.
Proof.
  unfold g_sums. intros E. pose proof u_pos as U0.
  apply (for_inv (fun i nd => sums_ok (i - 1) nd)) in E.
  - replace (1 + (N - k) - 1)%nat with (N - k)%nat in E by lia. exact E.
  - intros _ _. cbn [fst snd zero ieee]. rewrite literal_0. cbn [B2R Nat.sub INR pow]. rewrite Rabs_R0. split; [lra|]. rewrite Rmult_1_r. unfold Rdiv. rewrite Rmult_0_l, !Rmult_0_r, Rmult_0_l, Rplus_0_l, Rmult_0_r. lra.
  - intros i [n d] s' Hi I E'. apply bind_some in E' as [a [_ E']]. apply bind_some in E' as [b [_ E']]. injection E' as <-.
    unfold sums_ok in *. cbn [fst snd] in *. unfold square. cbn [add mul ieee]. intros F1 F2.
    apply plus_fin in F1 as [Fn [Ft En]]. apply plus_fin in F2 as [Fd [Fs Ed]]. rewrite En, Ed.
    apply mult_fin in Ft as [Fa [Fb Et]]. apply plus_fin in Fs as [Faa [Fbb Es]]. apply mult_fin in Faa as [_ [_ Eaa]]. apply mult_fin in Fbb as [_ [_ Ebb]].
    rewrite Et, Es, Eaa, Ebb. destruct (I Fn Fd) as [I1 I2].
    replace (S i - 1)%nat with (S (i - 1)) by lia. rewrite S_INR.
    replace ((1 + 4 * u) ^ S (S (i - 1))) with ((1 + 4 * u) ^ S (i - 1) * (1 + 4 * u)) by (cbn [pow]; ring).
    apply sum_step_bound; [apply pos_INR|apply pow_ge_x; [lra|lia]|exact I1|exact I2].
Qed.

Lemma pow_linear m : 8 * INR m * u <= 1 -> (1 + 4 * u) ^ m <= 1 + 8 * INR m * u.
Proof.
  pose proof u_pos as U0. induction m as [|m IH]; intros H; [cbn [pow INR]; lra|]. rewrite S_INR in *. assert (P := pos_INR m).
  assert (I : (1 + 4 * u) ^ m <= 1 + 8 * INR m * u) by (apply IH; nra). cbn [pow].
  assert (X : (1 + 4 * u) * (1 + 4 * u) ^ m <= (1 + 4 * u) * (1 + 8 * INR m * u)) by (apply Rmult_le_compat_l; lra).
  assert (Y : 8 * INR m * u * (4 * u) <= 1 * (4 * u)) by (apply Rmult_le_compat_r; nra). nra.
Qed.

(** reflection coefficient computed from sums of n <= 2^31 terms *)
Lemma reflection_float n nd : (Z.of_nat n <= 2 ^ 31)%Z -> sums_ok n nd -> less ieee (fabs ieee (snd nd)) (tiny ieee) = false ->
  fin (g_reflection ieee nd) = true -> Rabs (val (g_reflection ieee nd)) <= (1 + 4 * u) ^ (n + 3).
Proof.
  intros Hn I L F. pose proof u_pos as U0. pose proof u_small as U1. pose proof eta_pos as E0. unfold g_reflection in *. cbn [div mul two ieee] in *.
  assert (G1 : 1 <= (1 + 4 * u) ^ (n + 3)) by (apply pow_ge_1; lra).
  apply div_fin in F as [Fn [[Fd [Nd E]]|[Fd E]]]; [|rewrite E, Rabs_R0; lra].
  apply mult_fin in Fn as [_ [Fn En]]. rewrite val_2 in En. destruct (I Fn Fd) as [I1 I2]. rewrite E, En.
  set (D := val (snd nd)) in *. set (x := val (fst nd)) in *.
  assert (HD : bpow radix2 (-20) <= D).
  { cbn [less fabs tiny ieee] in L. rewrite Bcompare_correct in L by (rewrite ?is_finite_Babs; try exact Fd; apply val_tiny). rewrite B2R_Babs in L. fold D in L. rewrite (Rabs_right D) in L by lra.
    destruct (Rcompare_spec D (val (literal 4722366482869645 (-72)))) as [H|H|H]; [discriminate| |]; pose proof (proj1 val_tiny); lra. }
  set (G := (1 + 4 * u) ^ S n) in *. assert (HG : 1 <= G) by (apply pow_ge_1; lra).
  (* the underflow terms are negligible *)
  assert (NU : 16 * (INR n + 1) * eta <= u * D).
  { apply Rle_trans with (u * bpow radix2 (-20)); [|apply Rmult_le_compat_l; lra].
    assert (In : INR n <= bpow radix2 31) by (rewrite INR_IZR_INZ; change (bpow radix2 31) with (IZR (2 ^ 31)); apply IZR_le, Hn).
    assert (B : 16 * (INR n + 1) <= bpow radix2 36) by (change (bpow radix2 36) with 68719476736; change (bpow radix2 31) with 2147483648 in In; lra).
    apply Rle_trans with (bpow radix2 36 * eta); [apply Rmult_le_compat_r; lra|]. unfold u, eta. rewrite <- !bpow_plus. apply bpow_le. lia. }
  assert (Dp : 0 < D) by (pose proof (bpow_gt_0 radix2 (-20)); lra).
  assert (N0 := pos_INR n). assert (NE : 0 <= INR n * eta) by nra.
  assert (X : Rabs (rnd (2 * x)) <= G * (1 + 3 * u) * D).
  { eapply Rle_trans; [apply rnd_upper|]. rewrite Rabs_mult, (Rabs_right 2) by lra.
    assert (X1 : 2 * Rabs x <= G * (D + 16 * INR n * eta)) by (replace (G * (D + 16 * INR n * eta)) with (2 * (G * (D / 2 + 8 * INR n * eta))) by field; lra).
    assert (X2 : 2 * Rabs x * (1 + u) <= G * (D + 16 * INR n * eta) * (1 + u)) by (apply Rmult_le_compat_r; lra).
    assert (X3 : (D + 16 * INR n * eta) * (1 + u) + eta <= (1 + 3 * u) * D) by nra.
    assert (X4 : G * ((D + 16 * INR n * eta) * (1 + u) + eta) <= G * ((1 + 3 * u) * D)) by (apply Rmult_le_compat_l; lra). nra. }
  eapply Rle_trans; [apply rnd_upper|]. unfold Rdiv. rewrite Rabs_mult, (Rabs_right (/ D)) by (apply Rle_ge; left; apply Rinv_0_lt_compat, Dp).
  assert (Y : Rabs (rnd (2 * x)) * / D <= G * (1 + 3 * u)).
  { apply Rmult_le_reg_r with D; [exact Dp|]. rewrite Rmult_assoc, Rinv_l by lra. lra. }
  assert (Eu : eta <= u) by (unfold eta, u; apply bpow_le; lia).
  replace ((1 + 4 * u) ^ (n + 3)) with (G * ((1 + 4 * u) * (1 + 4 * u))) by (unfold G; replace (n + 3)%nat with (S (S (S n))) by lia; cbn [pow]; ring).
  assert (Y1 : Rabs (rnd (2 * x)) * / D * (1 + u) <= G * (1 + 3 * u) * (1 + u)) by (apply Rmult_le_compat_r; lra).
  assert (Y2 : G * ((1 + 3 * u) * (1 + u) + u) <= G * ((1 + 4 * u) * (1 + 4 * u))) by (apply Rmult_le_compat_l; [lra|nra]). nra.
Qed.

(** the factor 1 - r^2 *)
Lemma factor_float N n nd : (n < N)%nat -> (Z.of_nat N <= 2 ^ 31)%Z -> sums_ok n nd -> less ieee (fabs ieee (snd nd)) (tiny ieee) = false ->
  let f := sub ieee (one ieee) (square ieee (g_reflection ieee nd)) in fin f = true -> - (30 * (INR N + 2) * u) <= val f <= 1.
Proof.
  intros Hn HN I L f F. pose proof u_pos as U0. pose proof u_small as U1. pose proof eta_pos as E0. unfold f, square in *. cbn [sub one mul ieee] in *.
  apply minus_fin in F as [_ [Fs E]]. rewrite E, val_1. apply mult_fin in Fs as [Fr [_ Es]]. rewrite Es. set (r := val (g_reflection ieee nd)) in *.
  assert (R := reflection_float n nd ltac:(lia) I L Fr). fold r in R.
  assert (S0 : 0 <= rnd (r * r)) by (apply rnd_nonneg; nra).
  split.
  - set (m := INR N + 2). assert (Em : INR (n + 3) <= m) by (unfold m; rewrite plus_INR; cbn [INR]; assert (H : INR (S n) <= INR N) by (apply le_INR; lia); rewrite S_INR in H; lra).
    assert (mu : m * u <= / 1000000).
    { assert (In : INR N <= bpow radix2 31) by (rewrite INR_IZR_INZ; change (bpow radix2 31) with (IZR (2 ^ 31)); apply IZR_le, HN).
      unfold m. apply Rle_trans with ((bpow radix2 31 + 2) * u); [apply Rmult_le_compat_r; lra|]. unfold u. cbn. lra. }
    assert (m2 : 2 <= m) by (unfold m; pose proof (pos_INR N); lra).
    assert (R1 : Rabs r <= 1 + 8 * m * u). { eapply Rle_trans; [exact R|]. assert (X : INR (n + 3) * u <= m * u) by (apply Rmult_le_compat_r; lra). eapply Rle_trans; [apply pow_linear; lra|lra]. }
    assert (R2 : r * r <= 1 + 17 * m * u).
    { replace (r * r) with (Rabs r * Rabs r) by (unfold Rabs; destruct (Rcase_abs r); ring). pose proof (Rabs_pos r).
      assert (X : Rabs r * Rabs r <= (1 + 8 * m * u) * (1 + 8 * m * u)) by (apply Rmult_le_compat; lra). assert (Y : (m * u) * (m * u) <= (m * u) * / 1000000) by (apply Rmult_le_compat_l; nra). nra. }
    assert (R3 : rnd (r * r) <= 1 + 19 * m * u).
    { pose proof (rnd_upper (r * r)) as X. rewrite (Rabs_right (rnd (r * r))) in X by lra. rewrite (Rabs_right (r * r)) in X by nra.
      assert (Eu : eta <= u) by (unfold eta, u; apply bpow_le; lia). assert (Y : r * r * (1 + u) <= (1 + 17 * m * u) * (1 + u)) by (apply Rmult_le_compat_r; lra). assert (Z : (m * u) * u <= / 1000000 * u) by (apply Rmult_le_compat_r; lra).
      assert (W : u * 2 <= m * u) by nra. nra. }
    assert (W : u * 2 <= m * u) by nra. assert (Eu : eta <= u) by (unfold eta, u; apply bpow_le; lia).
    pose proof (rnd_upper (- (19 * m * u))) as X. rewrite (Rabs_left1 (- (19 * m * u))) in X by nra.
    assert (Z : rnd (- (19 * m * u)) <= rnd (1 - rnd (r * r))) by (apply rnd_mono; lra). assert (V := Rle_abs (- rnd (- (19 * m * u)))). rewrite Rabs_Ropp in V.
    assert (Q : (m * u) * u <= / 1000000 * u) by (apply Rmult_le_compat_r; lra). fold m. nra.
  - rewrite <- rnd_1 at 2. apply rnd_mono. lra.
Qed.

(** the discrepancy after any number of orders; P is the first one *)
Definition msd_ok (N : nat) (P m : float64) : Prop :=
  fin m = true -> fin P = true /\ 0 <= val P /\ Rabs (val m) <= val P /\ - (31 * (INR N + 2) * u * val P + eta) <= val m.
Lemma format_val (x : float64) : rnd (val x) = val x.
Proof. apply round_generic; [apply valid_rnd_N|]. apply generic_format_B2R. Qed.
Lemma msd_step N n nd P m : (n < N)%nat -> (Z.of_nat N <= 2 ^ 31)%Z -> sums_ok n nd -> less ieee (fabs ieee (snd nd)) (tiny ieee) = false ->
  msd_ok N P m -> msd_ok N P (g_discrepancy ieee m (g_reflection ieee nd)).
Proof.
  intros Hn HN I L H F. unfold g_discrepancy in *. cbn [mul] in F. change (mul ieee) with (Bmult (prec := 53) (emax := 1024) mode_NE) in *. apply mult_fin in F as [Fm [Ff E]].
  destruct (H Fm) as [FP [P0 [Ab Lo]]]. assert (Fa := factor_float N n nd Hn HN I L Ff). rewrite E. set (f := val (sub ieee (one ieee) (square ieee (g_reflection ieee nd)))) in *. set (x := val m) in *.
  pose proof u_pos as U0. pose proof u_small as U1. pose proof eta_pos as E0. assert (N0 := pos_INR N).
  assert (mu : (INR N + 2) * u <= / 1000000).
  { assert (In : INR N <= bpow radix2 31) by (rewrite INR_IZR_INZ; change (bpow radix2 31) with (IZR (2 ^ 31)); apply IZR_le, HN).
    apply Rle_trans with ((bpow radix2 31 + 2) * u); [apply Rmult_le_compat_r; lra|]. unfold u. cbn. lra. }
  set (mu' := (INR N + 2) * u) in *. replace (31 * (INR N + 2) * u) with (31 * mu') in * by (unfold mu'; ring). replace (30 * (INR N + 2) * u) with (30 * mu') in Fa by (unfold mu'; ring).
  assert (m0 : 0 <= mu') by (unfold mu'; nra).
  assert (mu1 : 30 * mu' <= 1) by lra. split; [exact FP|]. split; [exact P0|]. split.
  - assert (Fb : Rabs f <= 1) by (apply Rabs_le; lra). assert (X : Rabs (x * f) <= Rabs x) by (rewrite Rabs_mult; pose proof (Rabs_pos x); nra).
    eapply Rle_trans; [|exact Ab]. apply Rabs_le. assert (Q : x * f <= Rabs x /\ - Rabs x <= x * f) by (unfold Rabs at 1 in X; destruct (Rcase_abs (x * f)); lra).
    assert (FA : rnd (Rabs x) = Rabs x) by (unfold x; rewrite <- B2R_Babs; apply format_val). assert (FO : rnd (- Rabs x) = - Rabs x) by (unfold x; rewrite <- B2R_Babs, <- B2R_Bopp; apply format_val).
    split; [rewrite <- FO|rewrite <- FA]; apply rnd_mono; lra.
  - destruct (Rle_lt_dec 0 x) as [Sx|Sx].
    + rewrite Rabs_right in Ab by lra. assert (X : - (30 * mu' * val P) <= x * f) by nra.
      apply Rle_trans with (rnd (- (30 * mu' * val P))); [|apply rnd_mono, X].
      pose proof (rnd_upper (- (30 * mu' * val P))) as Y. assert (Q : 0 <= mu' * val P) by nra. rewrite (Rabs_left1 (- (30 * mu' * val P))) in Y by nra.
      assert (V := Rle_abs (- rnd (- (30 * mu' * val P)))). rewrite Rabs_Ropp in V. assert (W : mu' * val P * u <= mu' * val P * / 1000000) by (apply Rmult_le_compat_l; lra). nra.
    + apply Rle_trans with x; [exact Lo|]. assert (Fx : rnd x = x) by apply format_val. rewrite <- Fx at 1. apply rnd_mono. nra.
Qed.
Definition nonneg (p : float64) : Prop := fin p = true -> 0 <= val p.
Lemma power_nonneg data N p : g_power ieee data N = Some p -> nonneg p.
Proof.
  intros E. unfold g_power in E. apply (for_inv (fun _ => nonneg)) in E; [exact E| |].
  - intros _. cbn. lra.
  - intros i s s' _ I E'. apply bind_some in E' as [x [_ E']]. injection E' as <-. unfold square. cbn [add mul ieee]. intros F. apply plus_fin in F as [Fs [Fx Ev]]. rewrite Ev. apply rnd_nonneg.
    apply mult_fin in Fx as [_ [_ Ex]]. rewrite Ex. specialize (I Fs). assert (0 <= rnd (val x * val x)) by (apply rnd_nonneg; nra). lra.
Qed.
Lemma val_of_nat N : (1 <= N)%nat -> 0 <= val (literal (Z.of_nat N) 0).
Proof.
  intros HN. unfold literal. pose proof (binary_normalize_correct 53 1024 prec53 emax1024 mode_NE (Z.of_nat N) 0 false) as H. cbv zeta in H. destruct (Rlt_bool _ _).
  - destruct H as [-> _]. apply rnd_nonneg. apply F2R_ge_0. cbn. lia.
  - set (z := binary_normalize _ _ _ _ _ _ _ _) in *. destruct z; cbn in *; try discriminate; lra.
Qed.
Lemma coefficients_float data N M v c : (1 <= N)%nat -> (Z.of_nat N <= 2 ^ 31)%Z -> g_coefficients ieee data N M = Some (v, c) ->
  exists p, g_power ieee data N = Some p /\ (v = zero ieee \/ msd_ok N (div ieee p (of_int ieee N)) v).
Proof.
  intros H1 HN E. unfold g_coefficients in E. apply bind_some in E as [p [Ep E]]. exists p. split; [exact Ep|]. apply bind_some in E as [w [_ E]]. apply bind_some in E as [r [Er E]].
  set (P := div ieee p (of_int ieee N)) in *.
  apply (for_inv (fun _ r => match r with GRet x _ => x = zero ieee | GGo s => msd_ok N P (g_msd s) end)) in Er.
  - destruct r as [s|x c']; injection E as <- <-; [right|left]; exact Er.
  - cbn [g_msd]. intros F. split; [exact F|]. pose proof eta_pos as E0. pose proof u_pos as U0.
    assert (P0 : 0 <= val P).
    { unfold P in *. change (div ieee) with (Bdiv (prec := 53) (emax := 1024) mode_NE) in *. apply div_fin in F as [Fp [[Fn [Nz ->]]|[_ ->]]]; [|lra]. apply rnd_nonneg. apply Rmult_le_pos; [apply (power_nonneg data N); assumption|].
      left. apply Rinv_0_lt_compat. cbn [of_int ieee] in *. pose proof (val_of_nat N H1). lra. }
    split; [exact P0|]. rewrite Rabs_right by lra. split; [lra|]. assert (0 <= (INR N + 2) * u * val P) by (apply Rmult_le_pos; [pose proof (pos_INR N); nra|exact P0]). lra.
  - intros i s s' Hi I E'. destruct s as [s|x c']; [|injection E' as <-; exact I]. cbn [g_iter] in E'. apply bind_some in E' as [nd [Es E']].
    destruct (less ieee (fabs ieee (snd nd)) (tiny ieee)) eqn:L; [injection E' as <-; reflexivity|].
    apply sums_bound in Es. apply bind_some in E' as [c1 [_ E']]. apply bind_some in E' as [c2 [_ E']].
    assert (K : msd_ok N P (g_discrepancy ieee (g_msd s) (g_reflection ieee nd))) by (apply (msd_step N (N - i)); try assumption; lia).
    destruct (i =? M)%nat; [injection E' as <-; exact K|]. apply bind_some in E' as [wkm [_ E']]. apply bind_some in E' as [w' [_ E']]. injection E' as <-. exact K.
Qed.
