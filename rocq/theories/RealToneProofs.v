(** Lemmas for C116: the windowed autocorrelation spectrum of a real oscillation, in closed form. *)
From Verif Require Import SpectraModel SpectraSpec SpectraProofs FftModel FftSpec FftProofs.
From Coq Require Import Lra Lia Permutation.
From Coq Require Import List. Import ListNotations.
Open Scope R_scope.

(** ---------- trigonometry ---------- *)
Lemma sin_cubic a : 0 <= a -> a <= 4 -> a - a ^ 3 / 6 <= sin a.
Proof.
  intros H1 H2. pose proof (proj1 (pre_sin_bound a 0 H1 H2)) as H. unfold sin_approx, sin_term in H. cbn in H. lra.
Qed.
Lemma sin_pi_even q : sin (PI * IZR (2 * q)) = 0 /\ cos (PI * IZR (2 * q)) = 1.
Proof.
  pose proof (cis_period 0 q) as H. rewrite cis_0 in H. unfold cis, RtoC in H. injection H as H1 H2.
  rewrite mult_IZR. replace (PI * (2 * IZR q)) with (0 + 2 * PI * IZR q) by ring. split; assumption.
Qed.
Lemma sin_pi_odd q : sin (PI * IZR (2 * q + 1)) = 0 /\ cos (PI * IZR (2 * q + 1)) = -1.
Proof.
  destruct (sin_pi_even q) as [A B]. rewrite plus_IZR. replace (PI * (IZR (2 * q) + 1)) with (PI * IZR (2 * q) + PI) by ring.
  rewrite sin_plus, cos_plus, A, B, sin_PI, cos_PI. split; ring.
Qed.
Lemma sin_pi p : sin (PI * IZR p) = 0.
Proof.
  destruct (Z.Even_or_Odd p) as [[q ->]|[q ->]]; [apply sin_pi_even|apply sin_pi_odd].
Qed.
Lemma abs_sin_shift x z : Rabs (sin (x + PI * IZR z)) = Rabs (sin x).
Proof.
  rewrite sin_plus, sin_pi. destruct (Z.Even_or_Odd z) as [[q ->]|[q ->]].
  - rewrite (proj2 (sin_pi_even q)). f_equal. ring.
  - rewrite (proj2 (sin_pi_odd q)). replace (sin x * -1 + cos x * 0) with (- sin x) by ring. apply Rabs_Ropp.
Qed.
(** the sine of a multiple of pi/n, not of pi, is at least sin (pi/n) *)
Lemma sin_multiple n p : (2 <= n)%nat -> (p mod Z.of_nat n <> 0)%Z -> sin (PI / INR n) <= Rabs (sin (PI * IZR p / INR n)).
Proof.
  intros Hn Hp. assert (H0 : 0 < INR n) by (apply lt_0_INR; lia). assert (H2 : 2 <= INR n) by (apply (le_INR 2); exact Hn).
  pose proof PI_RGT_0 as HPI.
  set (r := (p mod Z.of_nat n)%Z) in *. assert (Hr : (1 <= r <= Z.of_nat n - 1)%Z) by (pose proof (Z.mod_pos_bound p (Z.of_nat n)); unfold r in *; lia).
  assert (E : PI * IZR p / INR n = PI * IZR r / INR n + PI * IZR (p / Z.of_nat n)).
  { rewrite (Z.div_mod p (Z.of_nat n)) at 1 by lia. fold r. rewrite plus_IZR, mult_IZR, <- INR_IZR_INZ. field. lra. }
  rewrite E, abs_sin_shift.
  assert (R1 : 1 <= IZR r) by (apply IZR_le; lia). assert (R2 : IZR r <= INR n - 1) by (rewrite INR_IZR_INZ, <- minus_IZR; apply IZR_le; lia).
  set (x := PI / INR n). assert (X0 : 0 < x) by (apply Rdiv_lt_0_compat; assumption).
  assert (Xn : INR n * x = PI) by (unfold x; field; lra).
  replace (PI * IZR r / INR n) with (IZR r * x) by (unfold x; field; lra).
  assert (P : sin x <= sin (IZR r * x)).
  { destruct (Rle_lt_dec (IZR r * x) (PI / 2)) as [L|L].
    - apply sin_incr_1; nra.
    - rewrite <- (sin_PI_x (IZR r * x)). apply sin_incr_1; nra. }
  eapply Rle_trans; [exact P|apply Rle_abs].
Qed.
Lemma sin_pi_n_pos n : (2 <= n)%nat -> 0 < sin (PI / INR n).
Proof.
  intros Hn. assert (H2 : 2 <= INR n) by (apply (le_INR 2); exact Hn). pose proof PI_RGT_0 as HPI. apply sin_gt_0.
  - apply Rdiv_lt_0_compat; lra.
  - apply (Rmult_lt_reg_r (INR n)); [lra|]. unfold Rdiv. rewrite Rmult_assoc, Rinv_l by lra. nra.
Qed.

(** ---------- real sums ---------- *)
Lemma rsumn_0 f : rsumn 0 f = 0.
Proof. reflexivity. Qed.
Lemma rsumn_plus n f g : rsumn n (fun k => f k + g k) = rsumn n f + rsumn n g.
Proof. induction n as [|n IH]; [rewrite !rsumn_0; ring|]. rewrite !rsumn_S, IH. ring. Qed.
Lemma csumn_app n m f : csumn (n + m) f = Cplus (csumn n f) (csumn m (fun i => f (n + i)%nat)).
Proof.
  induction m as [|m IH]; [rewrite Nat.add_0_r, csumn_0; generalize (csumn n f); intros c; cring|].
  rewrite Nat.add_succ_r, !csumn_S, IH. generalize (csumn n f), (csumn m (fun i => f (n + i)%nat)), (f (n + m)%nat). intros a b c. cring.
Qed.
Lemma csumn_rev n f : csumn n f = csumn n (fun i => f (n - 1 - i)%nat).
Proof.
  revert f. induction n as [|n IH]; intros f; [reflexivity|]. rewrite csumn_S.
  replace (S n) with (1 + n)%nat at 1 by lia. rewrite (csumn_app 1 n). rewrite csumn_S, csumn_0.
  rewrite (csumn_ext n (fun i => f (S n - 1 - (1 + i))%nat) (fun i => f (n - 1 - i)%nat)) by (intros i Hi; f_equal; lia).
  rewrite <- IH. replace (S n - 1 - 0)%nat with n by lia. generalize (csumn n f), (f n). intros a b. cring.
Qed.
(** the lags 0 .. h, those strictly between counted twice; [odd] the last one too *)
Definition lags (h : nat) (odd : bool) (f : nat -> R) : R := rsumn h (fun k => f k + f (S k)) + (if odd then f h else 0).
Lemma lags_ext h o f g : (forall k, f k = g k) -> lags h o f = lags h o g.
Proof. intros H. unfold lags. rewrite (rsumn_ext h _ (fun k => g k + g (S k))) by (intros; rewrite !H; reflexivity). rewrite H. reflexivity. Qed.
Lemma lags_plus h o f g : lags h o (fun k => f k + g k) = lags h o f + lags h o g.
Proof. unfold lags. rewrite (rsumn_ext h _ (fun k => (f k + f (S k)) + (g k + g (S k)))) by (intros; ring). rewrite rsumn_plus. destruct o; ring. Qed.
Lemma lags_scal h o c f : lags h o (fun k => c * f k) = c * lags h o f.
Proof. unfold lags. rewrite (rsumn_ext h _ (fun k => c * (f k + f (S k)))) by (intros; ring). rewrite rsumn_scal. destruct o; ring. Qed.

(** Sum' (n-k) cos(alpha k) and Sum' sin(alpha k) *)
Definition U (n h : nat) (o : bool) (al : R) : R := lags h o (fun k => (INR n - INR k) * cos (al * INR k)).
Definition V (h : nat) (o : bool) (al : R) : R := lags h o (fun k => sin (al * INR k)).

Lemma U_trapezoid n al N :
  (1 - cos al) * rsumn N (fun k => (INR n - INR k) * cos (al * INR k) + (INR n - INR (S k)) * cos (al * INR (S k)))
  = 1 - cos (al * INR N) + (INR n - INR N) * (sin al * sin (al * INR N)).
Proof.
  induction N as [|N IH].
  - rewrite rsumn_0. cbn [INR]. rewrite !Rmult_0_r, cos_0, sin_0. ring.
  - rewrite rsumn_S, Rmult_plus_distr_l, IH. rewrite !S_INR. replace (al * (INR N + 1)) with (al * INR N + al) by ring.
    rewrite cos_plus, sin_plus. pose proof (sin2_cos2 al) as H. unfold Rsqr in H.
    set (s := sin al) in *. set (c := cos al) in *. set (S := sin (al * INR N)). set (Cc := cos (al * INR N)). set (a := INR n - INR N).
    replace (INR n - (INR N + 1)) with (a - 1) by (unfold a; ring).
    assert (E : s * s = 1 - c * c) by lra.
    replace (1 - (Cc * c - S * s) + (a - 1) * (s * (S * c + Cc * s))) with (1 - (Cc * c - S * s) + (a - 1) * (s * S * c + Cc * (s * s))) by ring.
    rewrite E. ring.
Qed.
Lemma V_trapezoid al N :
  sin (al / 2) * rsumn N (fun k => sin (al * INR k) + sin (al * INR (S k))) = cos (al / 2) * (1 - cos (al * INR N)).
Proof.
  induction N as [|N IH].
  - rewrite rsumn_0. cbn [INR]. rewrite !Rmult_0_r, cos_0. ring.
  - rewrite rsumn_S, Rmult_plus_distr_l, IH, S_INR. replace (al * (INR N + 1)) with (al * INR N + (al / 2 + al / 2)) by field.
    rewrite cos_plus, sin_plus, sin_plus, cos_plus. pose proof (sin2_cos2 (al / 2)) as H. unfold Rsqr in H.
    set (s := sin (al / 2)) in *. set (c := cos (al / 2)) in *. set (S := sin (al * INR N)). set (Cc := cos (al * INR N)).
    assert (E : s * s = 1 - c * c) by lra.
    replace (c * (1 - Cc) + s * (S + (S * (c * c - s * s) + Cc * (s * c + c * s)))) with (c * (1 - Cc) + s * S * (1 + c * c - s * s) + 2 * c * Cc * (s * s)) by ring.
    rewrite E. ring_simplify. replace (c * c ^ 2) with (c ^ 3) by ring. 
    replace (2 * s * S * c ^ 2) with (2 * c * S * s * c) by ring. ring.
Qed.

(** n = 2h *)
Section EvenLength.
Context (n h : nat) (Hn : n = (2 * h)%nat) (Hh : (1 <= h)%nat).
Lemma even_angle p : 2 * PI * IZR p / INR n * INR h = PI * IZR p.
Proof. assert (0 < INR h) by (apply lt_0_INR; lia). rewrite Hn, mult_INR. cbn [INR]. field. lra. Qed.
Lemma U_even p : (1 - cos (2 * PI * IZR p / INR n)) * U n h false (2 * PI * IZR p / INR n) = 1 - cos (PI * IZR p).
Proof. unfold U, lags. rewrite Rplus_0_r, U_trapezoid, even_angle, sin_pi. ring. Qed.
Lemma V_even p : sin (PI * IZR p / INR n) * V h false (2 * PI * IZR p / INR n) = cos (PI * IZR p / INR n) * (1 - cos (PI * IZR p)).
Proof.
  unfold V, lags. rewrite Rplus_0_r. replace (PI * IZR p / INR n) with (2 * PI * IZR p / INR n / 2) by (unfold Rdiv; lra).
  rewrite V_trapezoid, even_angle. reflexivity.
Qed.
End EvenLength.
(** n = 2h + 1 *)
Section OddLength.
Context (n h : nat) (Hn : n = (2 * h + 1)%nat).
Lemma odd_angle p : 2 * PI * IZR p / INR n * INR h = PI * IZR p - PI * IZR p / INR n.
Proof. assert (0 <= INR h) by apply pos_INR. rewrite Hn, plus_INR, mult_INR. cbn [INR]. field. lra. Qed.
Lemma U_odd p : (1 - cos (2 * PI * IZR p / INR n)) * U n h true (2 * PI * IZR p / INR n) = 1 - cos (PI * IZR p) * cos (PI * IZR p / INR n).
Proof.
  unfold U, lags. rewrite Rmult_plus_distr_l, U_trapezoid, odd_angle, cos_minus, sin_minus, sin_pi.
  set (x := PI * IZR p / INR n). replace (2 * PI * IZR p / INR n) with (2 * x) by (unfold x, Rdiv; ring).
  set (e := cos (PI * IZR p)). rewrite sin_2a, cos_2a_sin. ring.
Qed.
Lemma V_odd p : sin (PI * IZR p / INR n) * V h true (2 * PI * IZR p / INR n) = cos (PI * IZR p / INR n) - cos (PI * IZR p).
Proof.
  unfold V, lags. replace (sin (PI * IZR p / INR n)) with (sin (2 * PI * IZR p / INR n / 2)) by (f_equal; unfold Rdiv; lra).
  rewrite Rmult_plus_distr_l, V_trapezoid, odd_angle.
  replace (2 * PI * IZR p / INR n / 2) with (PI * IZR p / INR n) by (unfold Rdiv; lra).
  rewrite cos_minus, sin_minus, sin_pi. set (x := PI * IZR p / INR n). set (e := cos (PI * IZR p)).
  pose proof (sin2_cos2 x) as H. unfold Rsqr in H. assert (E : sin x * sin x = 1 - cos x * cos x) by lra.
  replace (cos x * (1 - (e * cos x + 0 * sin x)) + sin x * (0 * cos x - e * sin x)) with (cos x - e * (cos x * cos x) - e * (sin x * sin x)) by ring. rewrite E. ring.
Qed.
End OddLength.

(** ---------- the spectrum at the integer frequency l of an oscillation at s, up to the amplitude ---------- *)
Definition M (n h : nat) (o : bool) (g : R) (s l : Z) : R :=
  lags h o (fun k => ((INR n - INR k) * cos (2 * PI * IZR s / INR n * INR k) - g * sin (2 * PI * IZR s / INR n * INR k)) * cos (2 * PI * IZR l / INR n * INR k)).
Lemma M_split n h o g s l : 0 < INR n ->
  2 * M n h o g s l = U n h o (2 * PI * IZR (l - s) / INR n) + U n h o (2 * PI * IZR (l + s) / INR n)
                      - g * (V h o (2 * PI * IZR (l + s) / INR n) - V h o (2 * PI * IZR (l - s) / INR n)).
Proof.
  intros H0. unfold M, U, V.
  transitivity (lags h o (fun k => (INR n - INR k) * cos (2 * PI * IZR (l - s) / INR n * INR k)) + lags h o (fun k => (INR n - INR k) * cos (2 * PI * IZR (l + s) / INR n * INR k))
     + (- g * lags h o (fun k => sin (2 * PI * IZR (l + s) / INR n * INR k)) + g * lags h o (fun k => sin (2 * PI * IZR (l - s) / INR n * INR k)))); [|ring].
  rewrite <- !lags_scal, <- !lags_plus. apply lags_ext. intros k.
  replace (2 * PI * IZR (l - s) / INR n * INR k) with (2 * PI * IZR l / INR n * INR k - 2 * PI * IZR s / INR n * INR k) by (rewrite minus_IZR; field; lra).
  replace (2 * PI * IZR (l + s) / INR n * INR k) with (2 * PI * IZR l / INR n * INR k + 2 * PI * IZR s / INR n * INR k) by (rewrite plus_IZR; field; lra).
  rewrite cos_minus, cos_plus, sin_minus, sin_plus. ring.
Qed.
Lemma sin_nonzero n p : (2 <= n)%nat -> (p mod Z.of_nat n <> 0)%Z -> sin (PI * IZR p / INR n) <> 0.
Proof. intros Hn Hp E. pose proof (sin_multiple n p Hn Hp) as A. pose proof (sin_pi_n_pos n Hn). rewrite E, Rabs_R0 in A. lra. Qed.
Lemma one_minus_cos n p : 1 - cos (2 * PI * IZR p / INR n) = 2 * (sin (PI * IZR p / INR n) * sin (PI * IZR p / INR n)).
Proof. replace (2 * PI * IZR p / INR n) with (2 * (PI * IZR p / INR n)) by (unfold Rdiv; ring). rewrite cos_2a_sin. ring. Qed.
Lemma lags_flat n h : lags h false (fun k => INR n - INR k) = INR h * (2 * INR n) - INR h * INR h.
Proof. unfold lags. rewrite Rplus_0_r. induction h as [|h IH]; [rewrite rsumn_0; cbn [INR]; ring|]. rewrite rsumn_S, IH, !S_INR. ring. Qed.
Lemma U_zero n h o : U n h o (2 * PI * IZR 0 / INR n) = lags h o (fun k => INR n - INR k).
Proof. unfold U. apply lags_ext. intros k. replace (2 * PI * 0 / INR n * INR k) with 0 by (unfold Rdiv; ring). rewrite cos_0. ring. Qed.
Lemma V_zero n h o : V h o (2 * PI * IZR 0 / INR n) = 0.
Proof.
  unfold V. rewrite (lags_ext _ _ _ (fun k => 0 * 0)), lags_scal; [ring|]. intros k. replace (2 * PI * 0 / INR n * INR k) with 0 by (unfold Rdiv; ring). rewrite sin_0. ring.
Qed.
Lemma two_mod_even n p : (2 * p mod Z.of_nat n <> 0)%Z -> (p mod Z.of_nat n <> 0)%Z.
Proof. intros H E. apply H. destruct (Z.eq_dec (Z.of_nat n) 0) as [Z0|Z0]; [rewrite Z0 in *; rewrite Zmod_0_r in *; lia|]. rewrite Z.mul_mod, E, Z.mul_0_r by exact Z0. apply Z.mod_0_l, Z0. Qed.

Section EvenBounds.
Context (n h : nat) (Hn : n = (2 * h)%nat) (Hh : (1 <= h)%nat) (s : Z) (Hs : (2 * s mod Z.of_nat n <> 0)%Z).
Let n2 : (2 <= n)%nat.
Proof. lia. Qed.
Let n0 : 0 < INR n.
Proof. apply lt_0_INR. lia. Qed.
Lemma even_n4 : (4 <= n)%nat.
Proof. destruct h as [|[|k]]; try lia. exfalso. apply Hs. rewrite Hn. change (Z.of_nat (2 * 1)) with 2%Z. rewrite Z.mul_comm. apply Z.mod_mul. lia. Qed.
Lemma UV_even_even q : (2 * q mod Z.of_nat n <> 0)%Z -> U n h false (2 * PI * IZR (2 * q) / INR n) = 0 /\ V h false (2 * PI * IZR (2 * q) / INR n) = 0.
Proof.
  intros Hq. pose proof (sin_nonzero n _ n2 Hq) as S0. pose proof (U_even n h Hn Hh (2 * q)) as EU. pose proof (V_even n h Hn Hh (2 * q)) as EV.
  rewrite (proj2 (sin_pi_even q)) in EU, EV. rewrite one_minus_cos in EU. split.
  -
    apply (Rmult_eq_reg_l (2 * (sin (PI * IZR (2 * q) / INR n) * sin (PI * IZR (2 * q) / INR n)))); [rewrite EU; ring|]. nra.
  - apply (Rmult_eq_reg_l (sin (PI * IZR (2 * q) / INR n))); [rewrite EV; ring|exact S0].
Qed.
Lemma UV_even_odd q : let x := PI * IZR (2 * q + 1) / INR n in sin x <> 0 ->
  U n h false (2 * PI * IZR (2 * q + 1) / INR n) = / (sin x * sin x) /\ V h false (2 * PI * IZR (2 * q + 1) / INR n) = 2 * cos x / sin x.
Proof.
  intros x S0. pose proof (U_even n h Hn Hh (2 * q + 1)) as EU. pose proof (V_even n h Hn Hh (2 * q + 1)) as EV.
  rewrite (proj2 (sin_pi_odd q)) in EU, EV. rewrite one_minus_cos in EU. fold x in EU, EV. split.
  - apply (Rmult_eq_reg_l (2 * (sin x * sin x))); [rewrite EU; field; exact S0|nra].
  - apply (Rmult_eq_reg_l (sin x)); [rewrite EV; field; exact S0|exact S0].
Qed.
Lemma M_even_peak g : 2 * M n h false g s s = 3 / 4 * INR n ^ 2.
Proof.
  rewrite M_split by exact n0. replace (s - s)%Z with 0%Z by lia. replace (s + s)%Z with (2 * s)%Z by lia.
  destruct (UV_even_even s Hs) as [-> ->]. rewrite V_zero, U_zero, lags_flat, Hn, mult_INR. cbn [INR]. field.
Qed.
Lemma sines_even : 25 / 4 <= (INR n * sin (PI / INR n)) ^ 2.
Proof.
  pose proof even_n4 as H4. apply le_INR in H4. change (INR 4) with (1 + 1 + 1 + 1) in H4. pose proof PI_4 as P4. pose proof PI2_3_2 as P3.
  set (x := PI / INR n). assert (Ex : INR n * x = PI) by (unfold x; field; lra).
  assert (X0 : 0 <= x) by (unfold x; left; apply Rdiv_lt_0_compat; lra). assert (X1 : x <= 1) by nra.
  pose proof (sin_cubic x X0 ltac:(lra)) as B.
  assert (B2 : 5 / 2 <= INR n * sin x). 
  { apply Rle_trans with (INR n * (x - x ^ 3 / 6)); [|apply Rmult_le_compat_l; lra].
    replace (INR n * (x - x ^ 3 / 6)) with ((INR n * x) * (1 - x ^ 2 / 6)) by (field). rewrite Ex. assert (x ^ 2 <= 1) by nra. nra. }
  nra.
Qed.
Lemma M_even_off g l : Rabs (g * sin (2 * PI * IZR s / INR n)) <= 1 -> ((l - s) mod Z.of_nat n <> 0)%Z -> ((l + s) mod Z.of_nat n <> 0)%Z ->
  Rabs (2 * M n h false g s l) <= 97 / 100 * (3 / 4 * INR n ^ 2).
Proof.
  intros Hg H1 H2. rewrite M_split by exact n0.
  destruct (Z.Even_or_Odd (l - s)) as [[q Eq]|[q Eq]].
  - assert (Eq' : (l + s = 2 * (q + s))%Z) by lia. rewrite Eq in H1 |- *. rewrite Eq' in H2 |- *.
    destruct (UV_even_even _ H1) as [-> ->]. destruct (UV_even_even _ H2) as [-> ->].
    replace (0 + 0 - g * (0 - 0)) with 0 by ring. rewrite Rabs_R0. assert (0 <= INR n ^ 2) by (apply pow2_ge_0). lra.
  - assert (Eq' : (l + s = 2 * (q + s) + 1)%Z) by lia.
    pose proof (sin_nonzero n _ n2 H1) as S1. pose proof (sin_nonzero n _ n2 H2) as S2.
    pose proof (sin_multiple n _ n2 H1) as A1. pose proof (sin_multiple n _ n2 H2) as A2.
    pose proof (sin_nonzero n _ n2 Hs) as S3.
    rewrite Eq in *. rewrite Eq' in *.
    destruct (UV_even_odd _ S1) as [-> ->]. destruct (UV_even_odd _ S2) as [-> ->].
    set (a := PI * IZR (2 * q + 1) / INR n) in *. set (b := PI * IZR (2 * (q + s) + 1) / INR n) in *.
    assert (Eth : 2 * PI * IZR s / INR n = b - a). { unfold a, b. rewrite !plus_IZR, !mult_IZR, plus_IZR. field. lra. }
    assert (Cot : 2 * cos b / sin b - 2 * cos a / sin a = - 2 * sin (2 * PI * IZR s / INR n) / (sin a * sin b)).
    { rewrite Eth, sin_minus. field. split; assumption. }
    rewrite Cot. set (gam := g * sin (2 * PI * IZR s / INR n)) in *.
    replace (/ (sin a * sin a) + / (sin b * sin b) - g * (-2 * sin (2 * PI * IZR s / INR n) / (sin a * sin b)))
      with ((/ sin a) * (/ sin a) + (/ sin b) * (/ sin b) + 2 * gam * (/ sin a * / sin b)) by (unfold gam; field; split; assumption).
    pose proof (sin_pi_n_pos n n2) as Sp. set (sg := sin (PI / INR n)) in *.
    assert (I1 : Rabs (/ sin a) <= / sg) by (rewrite Rabs_inv; apply Rinv_le_contravar; assumption).
    assert (I2 : Rabs (/ sin b) <= / sg) by (rewrite Rabs_inv; apply Rinv_le_contravar; assumption).
    set (u := / sin a) in *. set (v := / sin b) in *.
    assert (Bd : Rabs (u * u + v * v + 2 * gam * (u * v)) <= 4 * (/ sg * / sg)).
    { assert (Q1 : u * u <= / sg * / sg) by (rewrite <- (Rabs_pos_eq (u * u)) by nra; rewrite Rabs_mult; apply Rmult_le_compat; auto using Rabs_pos).
      assert (Q2 : v * v <= / sg * / sg) by (rewrite <- (Rabs_pos_eq (v * v)) by nra; rewrite Rabs_mult; apply Rmult_le_compat; auto using Rabs_pos).
      assert (G : -1 <= gam <= 1) by (revert Hg; unfold Rabs; destruct (Rcase_abs gam); intros; lra).
      apply Rabs_le. pose proof (Rle_0_sqr (u - v) : 0 <= (u - v) * (u - v)) as W1. pose proof (Rle_0_sqr (u + v) : 0 <= (u + v) * (u + v)) as W2.
      pose proof (Rmult_le_pos (1 + gam) _ ltac:(lra) W1). pose proof (Rmult_le_pos (1 - gam) _ ltac:(lra) W2).
      pose proof (Rmult_le_pos (1 - gam) _ ltac:(lra) W1). pose proof (Rmult_le_pos (1 + gam) _ ltac:(lra) W2). split; nra. }
    eapply Rle_trans; [exact Bd|]. pose proof sines_even as Se. fold sg in Se.
    apply (Rmult_le_reg_r (sg * sg)); [nra|]. replace (4 * (/ sg * / sg) * (sg * sg)) with 4 by (field; lra). nra.
Qed.
End EvenBounds.

(** three angles adding up to a right angle cannot all have small sines *)
Lemma three_sines_sorted X Y Z sg ka : X + Y + Z = PI / 2 -> 0 < sg -> sg <= Rabs (sin X) -> Rabs (sin X) <= Rabs (sin Y) -> Rabs (sin Y) <= Rabs (sin Z) ->
  0 < ka -> ka * sg <= 1 / 4 -> ka <= 1 - 2 * sg ^ 2 -> ka * sg ^ 2 <= Rabs (sin X) * (Rabs (sin Y) * Rabs (sin Z)).
Proof.
  intros HS Hsg HX XY YZ Hk K1 K2. set (u := Rabs (sin X)) in *. set (v := Rabs (sin Y)) in *. set (w := Rabs (sin Z)) in *.
  assert (W : 1 - 2 * v ^ 2 <= w).
  { assert (EZ : sin Z = cos X * cos Y - sin X * sin Y).
    { replace Z with (PI / 2 - (X + Y)) by lra. rewrite sin_shift, cos_plus. reflexivity. }
    assert (A : Rabs (cos X * cos Y) <= w + u * v).
    { replace (cos X * cos Y) with (sin Z + sin X * sin Y) by (rewrite EZ; ring). eapply Rle_trans; [apply Rabs_triang|].
      rewrite Rabs_mult. fold u v w. lra. }
    rewrite Rabs_mult in A. assert (E1 : Rabs (cos X) ^ 2 = 1 - u ^ 2).
    { unfold u. rewrite !pow2_abs. pose proof (sin2_cos2 X) as H. unfold Rsqr in H. simpl. lra. }
    assert (E2 : Rabs (cos Y) ^ 2 = 1 - v ^ 2).
    { unfold v. rewrite !pow2_abs. pose proof (sin2_cos2 Y) as H. unfold Rsqr in H. simpl. lra. }
    pose proof (Rabs_pos (cos X)). pose proof (Rabs_pos (cos Y)).
    assert (Le : Rabs (cos Y) <= Rabs (cos X)). { apply Rnot_lt_le. intros Lt. assert (u ^ 2 <= v ^ 2) by (pose proof (Rabs_pos (sin X)); fold u in H1; nra). nra. }
    nra. }
  assert (P : ka * sg <= v * w).
  { destruct (Rle_lt_dec v (1 / 2)) as [L|L].
    - assert (Hv : sg <= v) by lra.
      (* v (1 - 2 v^2) is at least the smaller of its values at sg and at 1/2 *)
      apply Rle_trans with (v * (1 - 2 * v ^ 2)); [|apply Rmult_le_compat_l; lra].
      assert (F1 : ka * sg <= sg * (1 - 2 * sg ^ 2)) by nra.
      destruct (Req_dec sg (1 / 2)) as [E|E]; [replace v with (1 / 2) by lra; lra|].
      apply (Rmult_le_reg_l (1 / 2 - sg)); [lra|].
      (* concavity *)
      assert (Cv : (1 / 2 - sg) * (v * (1 - 2 * v ^ 2)) = (1 / 2 - v) * (sg * (1 - 2 * sg ^ 2)) + (v - sg) * (1 / 4) + 2 * ((v - sg) * (1 / 2 - v) * ((1 / 2 - sg) * (v + sg + 1 / 2)))) by field.
      assert (0 <= (v - sg) * (1 / 2 - v) * ((1 / 2 - sg) * (v + sg + 1 / 2))) by (apply Rmult_le_pos; apply Rmult_le_pos; lra).
      assert ((1 / 2 - v) * (ka * sg) <= (1 / 2 - v) * (sg * (1 - 2 * sg ^ 2))) by (apply Rmult_le_compat_l; lra).
      assert ((v - sg) * (ka * sg) <= (v - sg) * (1 / 4)) by (apply Rmult_le_compat_l; lra).
      rewrite Cv. lra.
    - nra. }
  replace (ka * sg ^ 2) with (sg * (ka * sg)) by ring. apply Rmult_le_compat; nra.
Qed.
Lemma three_sines X Y Z sg ka : X + Y + Z = PI / 2 -> 0 < sg -> sg <= Rabs (sin X) -> sg <= Rabs (sin Y) -> sg <= Rabs (sin Z) ->
  0 < ka -> ka * sg <= 1 / 4 -> ka <= 1 - 2 * sg ^ 2 -> ka * sg ^ 2 <= Rabs (sin X) * (Rabs (sin Y) * Rabs (sin Z)).
Proof.
  intros HS Hsg HX HY HZ Hk K1 K2. set (u := Rabs (sin X)). set (v := Rabs (sin Y)). set (w := Rabs (sin Z)).
  destruct (Rle_lt_dec u v) as [A|A]; destruct (Rle_lt_dec v w) as [B|B]; destruct (Rle_lt_dec u w) as [D|D]; try lra.
  - apply three_sines_sorted; auto.
  - replace (u * (v * w)) with (u * (w * v)) by ring. apply three_sines_sorted; try assumption; fold u v w; lra.
  - replace (u * (v * w)) with (w * (u * v)) by ring. apply three_sines_sorted; try assumption; fold u v w; lra.
  - replace (u * (v * w)) with (v * (u * w)) by ring. apply three_sines_sorted; try assumption; fold u v w; lra.
  - replace (u * (v * w)) with (v * (w * u)) by ring. apply three_sines_sorted; try assumption; fold u v w; lra.
  - replace (u * (v * w)) with (w * (v * u)) by ring. apply three_sines_sorted; try assumption; fold u v w; lra.
Qed.

Section OddBounds.
Context (n h : nat) (Hn : n = (2 * h + 1)%nat) (s : Z) (Hs : (2 * s mod Z.of_nat n <> 0)%Z).
Lemma odd_n3 : (3 <= n)%nat.
Proof. destruct h as [|k]; [|lia]. exfalso. apply Hs. rewrite Hn. apply Z.mod_1_r. Qed.
Let n2 : (2 <= n)%nat.
Proof. pose proof odd_n3. lia. Qed.
Let n0 : 0 < INR n.
Proof. apply lt_0_INR. lia. Qed.
Let n2n : (2 <= 2 * n)%nat.
Proof. lia. Qed.
Let sg := sin (PI / INR (2 * n)).
Let sg0 : 0 < sg.
Proof. apply sin_pi_n_pos, n2n. Qed.
Lemma half_multiple p : Z.Odd p -> sg <= Rabs (sin (PI * IZR p / (2 * INR n))).
Proof.
  intros [q Hq]. replace (2 * INR n) with (INR (2 * n)) by (rewrite mult_INR; reflexivity). apply sin_multiple; [exact n2n|].
  intros E. apply Z.mod_divide in E; [|lia]. destruct E as [z E]. lia.
Qed.
Lemma UV_odd_odd p : Z.Odd p -> (p mod Z.of_nat n <> 0)%Z -> let y := PI * IZR p / (2 * INR n) in sin y <> 0 /\ 
  U n h true (2 * PI * IZR p / INR n) = / 4 * (/ sin y * / sin y) /\ V h true (2 * PI * IZR p / INR n) = cos y / sin y.
Proof.
  intros [q Hq] Hp y. pose proof (sin_nonzero n _ n2 Hp) as S0. pose proof (U_odd n h Hn p) as EU. pose proof (V_odd n h Hn p) as EV.
  rewrite one_minus_cos in EU. assert (Ey : PI * IZR p / INR n = 2 * y) by (unfold y; field; lra). rewrite Ey in *.
  assert (Ep : cos (PI * IZR p) = -1) by (rewrite Hq; apply sin_pi_odd). rewrite Ep in *. rewrite sin_2a in *.
  assert (Sy : sin y <> 0) by nra. assert (Cy : cos y <> 0) by nra. rewrite cos_2a_cos in *.
  split; [exact Sy|]. split.
  - apply (Rmult_eq_reg_l (2 * (2 * sin y * cos y * (2 * sin y * cos y)))); [rewrite EU; field; exact Sy|]. nra.
  - apply (Rmult_eq_reg_l (2 * sin y * cos y)); [rewrite EV; field; exact Sy|]. nra.
Qed.
Lemma UV_odd_double : let y := PI * IZR s / INR n in sin y <> 0 /\ cos y <> 0 /\
  U n h true (2 * PI * IZR (2 * s) / INR n) = / 4 * (/ cos y * / cos y) /\ V h true (2 * PI * IZR (2 * s) / INR n) = - (sin y / cos y).
Proof.
  intros y. pose proof (sin_nonzero n _ n2 Hs) as S0. pose proof (U_odd n h Hn (2 * s)) as EU. pose proof (V_odd n h Hn (2 * s)) as EV.
  rewrite one_minus_cos in EU. assert (Ey : PI * IZR (2 * s) / INR n = 2 * y) by (unfold y; rewrite mult_IZR; field; lra). rewrite Ey in *.
  rewrite (proj2 (sin_pi_even s)) in *. rewrite sin_2a in *.
  assert (Sy : sin y <> 0) by nra. assert (Cy : cos y <> 0) by nra. rewrite cos_2a_sin in *.
  split; [exact Sy|]. split; [exact Cy|]. split.
  - apply (Rmult_eq_reg_l (2 * (2 * sin y * cos y * (2 * sin y * cos y)))); [rewrite EU; field; exact Cy|]. nra.
  - apply (Rmult_eq_reg_l (2 * sin y * cos y)); [rewrite EV; field; exact Cy|]. nra.
Qed.
(** how much lower than the peak the rest is *)
Definition margin : R := if Nat.eq_dec n 3 then 1 else 97 / 100.
Lemma sines_odd : exists ka, 0 < ka <= 1 /\ ka * sg <= 1 / 4 /\ ka <= 1 - 2 * sg ^ 2 /\ 1 / 2 + / (2 * ka) <= margin * (sg ^ 2 * ((3 * INR n ^ 2 + 1) / 4) - 1 / 4).
Proof.
  unfold margin. destruct (Nat.eq_dec n 3) as [E3|E3].
  - exists (1 / 2). assert (Es : sg = 1 / 2). { unfold sg. rewrite E3. replace (PI / INR (2 * 3)) with (PI / 6) by (cbn [INR Nat.mul Nat.add]; field). apply sin_PI6. }
    rewrite Es, E3. cbn [INR]. repeat split; try lra.
  - exists (5 / 8). pose proof odd_n3 as H3. assert (H5 : 5 <= INR n) by (rewrite INR_IZR_INZ; apply IZR_le; lia).
    pose proof PI_4 as P4. pose proof PI2_3_2 as P3.
    set (x := PI / INR (2 * n)) in *. assert (Ex : INR n * x = PI / 2) by (unfold x; rewrite mult_INR; cbn [INR]; field; lra).
    assert (X0 : 0 <= x) by nra. assert (X1 : x <= 2 / 5) by nra.
    pose proof (sin_cubic x X0 ltac:(lra)) as B. fold sg in B.
    assert (S1 : sg <= x). { unfold sg. destruct (Req_dec x 0) as [->|N]; [rewrite sin_0; lra|]. left. apply sin_lt_x. lra. }
    assert (x ^ 2 <= 4 / 25) by nra. assert (sg ^ 2 <= 4 / 25) by nra.
    assert (B2 : 146 / 100 <= INR n * sg).
    { apply Rle_trans with (INR n * (x - x ^ 3 / 6)); [|apply Rmult_le_compat_l; lra].
      replace (INR n * (x - x ^ 3 / 6)) with ((INR n * x) * (1 - x ^ 2 / 6)) by (field). rewrite Ex. nra. }
    assert ((146 / 100) * (146 / 100) <= (INR n * sg) * (INR n * sg)) by (apply Rmult_le_compat; lra).
    repeat split; try lra. replace (sg ^ 2 * ((3 * INR n ^ 2 + 1) / 4)) with (3 / 4 * ((INR n * sg) * (INR n * sg)) + sg ^ 2 / 4) by field.
    assert (0 <= sg ^ 2) by (apply pow2_ge_0). lra.
Qed.
Lemma cos_half_bound : sg <= Rabs (cos (PI * IZR s / INR n)).
Proof.
  replace (cos (PI * IZR s / INR n)) with (sin (PI * IZR (Z.of_nat n + 2 * s) / (2 * INR n))).
  - apply half_multiple. exists (Z.of_nat h + s)%Z. lia.
  - rewrite plus_IZR, mult_IZR, <- INR_IZR_INZ. replace (PI * (INR n + 2 * IZR s) / (2 * INR n)) with (PI / 2 - (- (PI * IZR s / INR n))) by (field; lra).
    rewrite sin_shift, cos_neg. reflexivity.
Qed.
Lemma M_odd_peak g : let gam := g * sin (2 * PI * IZR s / INR n) in let y := PI * IZR s / INR n in
  2 * M n h true g s s = (3 * INR n ^ 2 + 1) / 4 + (1 + 2 * gam) * (/ 4 * (/ cos y * / cos y)).
Proof.
  intros gam y. rewrite M_split by exact n0. replace (s - s)%Z with 0%Z by lia. replace (s + s)%Z with (2 * s)%Z by lia.
  destruct UV_odd_double as [Sy [Cy [-> ->]]]. fold y in Sy, Cy |- *. rewrite V_zero, U_zero.
  assert (L : lags h true (fun k => INR n - INR k) = (3 * INR n ^ 2 + 1) / 4).
  { transitivity (lags h false (fun k => INR n - INR k) + (INR n - INR h)); [unfold lags; ring|]. rewrite lags_flat, Hn, plus_INR, mult_INR. cbn [INR]. field. }
  rewrite L. unfold gam. replace (2 * PI * IZR s / INR n) with (2 * y) by (unfold y, Rdiv; ring). rewrite sin_2a. field. exact Cy.
Qed.
Lemma M_odd_peak_low g : Rabs (g * sin (2 * PI * IZR s / INR n)) <= 1 -> (3 * INR n ^ 2 + 1) / 4 - / 4 * (/ sg * / sg) <= 2 * M n h true g s s.
Proof.
  intros Hg. rewrite M_odd_peak. set (gam := g * _) in *. pose proof cos_half_bound as B. set (c := cos (PI * IZR s / INR n)) in *.
  assert (I : Rabs (/ c) <= / sg) by (rewrite Rabs_inv; apply Rinv_le_contravar; [exact sg0|exact B]).
  assert (Q : / c * / c <= / sg * / sg).
  { rewrite <- (Rabs_pos_eq (/ c * / c)) by (apply Rle_0_sqr). rewrite Rabs_mult; apply Rmult_le_compat; auto using Rabs_pos. }
  assert (P : 0 <= / c * / c) by (apply Rle_0_sqr).
  assert (G : -1 <= gam) by (revert Hg; unfold Rabs; destruct (Rcase_abs gam); intros; lra). nra.
Qed.
Lemma M_odd_off g l : Rabs (g * sin (2 * PI * IZR s / INR n)) <= 1 -> Z.Odd (l - s) -> ((l - s) mod Z.of_nat n <> 0)%Z -> ((l + s) mod Z.of_nat n <> 0)%Z ->
  Rabs (2 * M n h true g s l) <= margin * (2 * M n h true g s s).
Proof.
  intros Hg O1 H1 H2. assert (O2 : Z.Odd (l + s)) by (destruct O1 as [q Hq]; exists (q + s)%Z; lia).
  assert (M0 : 0 <= margin) by (unfold margin; destruct (Nat.eq_dec n 3); lra).
  eapply Rle_trans; [|apply Rmult_le_compat_l; [exact M0|apply M_odd_peak_low; exact Hg]].
  rewrite M_split by exact n0. destruct (UV_odd_odd _ O1 H1) as [S1 [-> ->]]. destruct (UV_odd_odd _ O2 H2) as [S2 [-> ->]].
  pose proof (half_multiple _ O1) as A1. pose proof (half_multiple _ O2) as A2. pose proof cos_half_bound as A3.
  destruct UV_odd_double as [Sy [Cy _]].
  set (a := PI * IZR (l - s) / (2 * INR n)) in *. set (b := PI * IZR (l + s) / (2 * INR n)) in *. set (y := PI * IZR s / INR n) in *.
  assert (Ey : y = b - a) by (unfold y, a, b; rewrite plus_IZR, minus_IZR; field; lra).
  assert (Cot : cos b / sin b - cos a / sin a = - sin y / (sin a * sin b)). { rewrite Ey, sin_minus. field. split; assumption. }
  rewrite Cot. set (gam := g * sin (2 * PI * IZR s / INR n)) in *.
  assert (Eg : g = gam / (2 * sin y * cos y)).
  { unfold gam. replace (2 * PI * IZR s / INR n) with (2 * y) by (unfold y, Rdiv; ring). rewrite sin_2a. field. split; assumption. }
  destruct sines_odd as [ka [[K0 K0'] [K1 [K2 K3]]]].
  assert (T : ka * sg ^ 2 <= Rabs (sin a) * (Rabs (sin (- b)) * Rabs (sin (PI / 2 + y)))).
  { apply three_sines; try assumption; [lra|rewrite sin_neg, Rabs_Ropp; exact A2|]. replace (PI / 2 + y) with (PI / 2 - - y) by ring. rewrite sin_shift, cos_neg. exact A3. }
  rewrite sin_neg, Rabs_Ropp in T. replace (PI / 2 + y) with (PI / 2 - - y) in T by ring. rewrite sin_shift, cos_neg, <- !Rabs_mult in T.
  set (prod := sin a * (sin b * cos y)) in *.
  assert (Np : prod <> 0) by (unfold prod; repeat apply Rmult_integral_contrapositive_currified; assumption).
  replace (/ 4 * (/ sin a * / sin a) + / 4 * (/ sin b * / sin b) - g * (- sin y / (sin a * sin b)))
    with (/ 4 * (/ sin a * / sin a) + / 4 * (/ sin b * / sin b) + gam / 2 * / prod) by (rewrite Eg; unfold prod; field; repeat split; assumption).
  assert (I1 : / sin a * / sin a <= / sg * / sg).
  { rewrite <- (Rabs_pos_eq (/ sin a * / sin a)) by (apply Rle_0_sqr). rewrite Rabs_mult, Rabs_inv. assert (/ Rabs (sin a) <= / sg) by (apply Rinv_le_contravar; [exact sg0|exact A1]).
    apply Rmult_le_compat; try assumption; left; apply Rinv_0_lt_compat, Rabs_pos_lt, S1. }
  assert (I2 : / sin b * / sin b <= / sg * / sg).
  { rewrite <- (Rabs_pos_eq (/ sin b * / sin b)) by (apply Rle_0_sqr). rewrite Rabs_mult, Rabs_inv. assert (/ Rabs (sin b) <= / sg) by (apply Rinv_le_contravar; [exact sg0|exact A2]).
    apply Rmult_le_compat; try assumption; left; apply Rinv_0_lt_compat, Rabs_pos_lt, S2. }
  assert (P1 : 0 <= / sin a * / sin a) by (apply Rle_0_sqr). assert (P2 : 0 <= / sin b * / sin b) by (apply Rle_0_sqr).
  assert (I3 : Rabs (/ prod) <= / (ka * sg ^ 2)) by (rewrite Rabs_inv; apply Rinv_le_contravar; [apply Rmult_lt_0_compat; [exact K0|apply pow_lt; exact sg0]|exact T]).
  assert (I4 : Rabs (gam / 2 * / prod) <= / 2 * / (ka * sg ^ 2)).
  { rewrite Rabs_mult. apply Rmult_le_compat; try apply Rabs_pos; [|exact I3]. unfold Rdiv. rewrite Rabs_mult, (Rabs_pos_eq (/ 2)) by lra. lra. }
  eapply Rle_trans; [apply Rabs_triang|]. rewrite (Rabs_pos_eq (/ 4 * _ + _)) by nra.
  assert (Fin : 1 / 2 * (/ sg * / sg) + / 2 * / (ka * sg ^ 2) <= margin * ((3 * INR n ^ 2 + 1) / 4 - / 4 * (/ sg * / sg))).
  { apply (Rmult_le_reg_l (sg ^ 2)); [apply pow_lt; exact sg0|].
    replace (sg ^ 2 * (1 / 2 * (/ sg * / sg) + / 2 * / (ka * sg ^ 2))) with (1 / 2 + / (2 * ka)) by (field; split; lra).
    replace (sg ^ 2 * (margin * ((3 * INR n ^ 2 + 1) / 4 - / 4 * (/ sg * / sg)))) with (margin * (sg ^ 2 * ((3 * INR n ^ 2 + 1) / 4) - 1 / 4)) by (field; lra). exact K3. }
  lra.
Qed.
Lemma M_odd_positive g : Rabs (g * sin (2 * PI * IZR s / INR n)) <= 1 -> 3 / 5 * INR n ^ 2 <= 2 * M n h true g s s.
Proof.
  intros Hg. eapply Rle_trans; [|apply M_odd_peak_low; exact Hg]. destruct sines_odd as [ka [[K0 K0'] [K1 [K2 K3]]]].
  assert (P : 0 < sg ^ 2) by (apply pow_lt; exact sg0).
  assert (I : / 2 <= / (2 * ka)) by (apply Rinv_le_contravar; lra).
  set (N := (3 * INR n ^ 2 + 1) / 4) in *.
  assert (M1 : 5 / 4 <= sg ^ 2 * N).
  { assert (0 < margin <= 1) by (unfold margin; destruct (Nat.eq_dec n 3); lra).
    assert (margin * (sg ^ 2 * N - 1 / 4) >= 1) by lra. nra. }
  assert (Q : / 4 * (/ sg * / sg) <= N / 5).
  { apply (Rmult_le_reg_l (sg ^ 2)); [exact P|]. replace (sg ^ 2 * (/ 4 * (/ sg * / sg))) with (/ 4) by (field; lra). nra. }
  assert (0 <= INR n ^ 2) by (apply pow2_ge_0). unfold N in *. lra.
Qed.
End OddBounds.
