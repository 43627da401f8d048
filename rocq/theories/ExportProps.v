(** C102: exported projections and time axes. *)
From Verif Require Export ExportModel.
From Coq Require Import Lra Lia.
Open Scope R_scope.

(** * Specification *)
(** the number a printed field stands for *)
Definition value (p : printed) : R := (if p_neg p then -1 else 1) * (IZR (p_digits p) * powerRZ 10 (p_exp p - 8)).
(** nine significant digits, no leading zero *)
Definition nine_digits (p : printed) : Prop := (10 ^ 8 <= p_digits p < 10 ^ 9)%Z.
(** equal up to half a unit of the ninth significant digit *)
Definition nearly (x y : R) : Prop := Rabs (y - x) <= 5 / 10 ^ 9 * Rabs x.
(** a printed pair stands for a complex number, real and imaginary part separately *)
Definition stands_for (p : printed * printed) (z : C) : Prop := nearly (fst z) (value (fst p)) /\ nearly (snd z) (value (snd p)).
(** a file of [rows] lines and [columns] columns whose entries stand for a table *)
Definition tabulates (l : list line) (rows columns : nat) (a : nat -> nat -> C) : Prop :=
  length l = rows /\ forall t, (t < rows)%nat -> exists ln, nth_error l t = Some ln /\ length ln = columns /\
    forall c, (c < columns)%nat -> exists p, nth_error ln c = Some p /\ stands_for p (a t c).
(** * Proofs *)
Lemma p10 k : 0 < powerRZ 10 k. Proof. apply powerRZ_lt. lra. Qed.
Lemma p10_exp k : powerRZ 10 k = exp (IZR k * ln 10).
Proof.
  destruct k as [|p|p]; cbn [powerRZ].
  - rewrite Rmult_0_l, exp_0. reflexivity.
  - rewrite <- Rpower_pow by lra. unfold Rpower. do 2 f_equal. rewrite INR_IZR_INZ, positive_nat_Z. reflexivity.
  - rewrite <- Rpower_pow by lra. unfold Rpower. rewrite <- exp_Ropp. f_equal. rewrite INR_IZR_INZ, positive_nat_Z.
    change (Z.neg p) with (- Z.pos p)%Z. rewrite opp_IZR. ring.
Qed.
Lemma ln10 : 0 < ln 10. Proof. rewrite <- ln_1. apply ln_increasing; lra. Qed.
Lemma p10_add a b : powerRZ 10 (a + b) = powerRZ 10 a * powerRZ 10 b. Proof. apply powerRZ_add. lra. Qed.
Lemma p10_le a b : (a <= b)%Z -> powerRZ 10 a <= powerRZ 10 b.
Proof. intros H. rewrite !p10_exp. apply IZR_le in H. pose proof ln10.
  destruct (Rle_lt_or_eq_dec _ _ H) as [E|E]; [left; apply exp_increasing; nra|right; rewrite E; reflexivity]. Qed.
Lemma p10_lt_inv a b : powerRZ 10 a < powerRZ 10 b -> (a < b)%Z.
Proof. intros H. apply Z.nle_gt. intros G. apply p10_le in G. lra. Qed.
Lemma exponent_spec x : x <> 0 -> powerRZ 10 (exponent x) <= Rabs x < powerRZ 10 (exponent x + 1).
Proof.
  intros H. assert (P := Rabs_pos_lt _ H). rewrite !p10_exp. unfold exponent. set (q := ln (Rabs x) / ln 10).
  pose proof (rfloor_bounds q) as B. pose proof ln10 as L.
  assert (E : ln (Rabs x) = q * ln 10) by (unfold q; field; lra).
  assert (X : Rabs x = exp (q * ln 10)) by (rewrite <- E, exp_ln; auto).
  rewrite X. rewrite plus_IZR. split.
  - destruct (Rle_lt_or_eq_dec _ _ (proj1 B)) as [G|G]; [left; apply exp_increasing; nra|right; rewrite G; reflexivity].
  - apply exp_increasing. nra.
Qed.
Lemma exponent_unique x e : powerRZ 10 e <= Rabs x < powerRZ 10 (e + 1) -> exponent x = e.
Proof.
  intros H. assert (N : x <> 0). { intros ->. rewrite Rabs_R0 in H. pose proof (p10 e). lra. }
  pose proof (exponent_spec x N) as S.
  assert (A : (e < exponent x + 1)%Z) by (apply p10_lt_inv; lra).
  assert (B : (exponent x < e + 1)%Z) by (apply p10_lt_inv; lra). lia.
Qed.
Lemma p8 : powerRZ 10 8 = IZR (10 ^ 8). Proof. change (10 ^ 8)%Z with 100000000%Z. unfold powerRZ. replace (Pos.to_nat 8) with 8%nat by reflexivity. lra. Qed.
Lemma p9 : powerRZ 10 9 = IZR (10 ^ 9). Proof. change (10 ^ 9)%Z with 1000000000%Z. unfold powerRZ. replace (Pos.to_nat 9) with 9%nat by reflexivity. lra. Qed.
Lemma around_mono_IZR x n : IZR n <= x -> (n <= around x)%Z.
Proof. intros H. pose proof (around_half x). apply Z.nlt_ge. intros G.
  assert (A : (around x + 1 <= n)%Z) by lia. apply IZR_le in A. rewrite plus_IZR in A. lra. Qed.
Lemma around_mono_IZR' x n : x <= IZR n -> (around x <= n)%Z.
Proof. intros H. pose proof (around_half x). apply Z.nlt_ge. intros G.
  assert (A : (n + 1 <= around x)%Z) by lia. apply IZR_le in A. rewrite plus_IZR in A. lra. Qed.
Lemma scaled x : x <> 0 -> IZR (10 ^ 8) <= Rabs x / powerRZ 10 (exponent x - 8) < IZR (10 ^ 9).
Proof.
  intros H. pose proof (exponent_spec x H) as [A B]. pose proof (p10 (exponent x - 8)) as P.
  replace (exponent x) with ((exponent x - 8) + 8)%Z in A by ring. replace (exponent x + 1)%Z with ((exponent x - 8) + 9)%Z in B by ring.
  rewrite p10_add, p8 in A. rewrite p10_add, p9 in B. revert A B P. generalize (exponent x - 8)%Z. intros k A B P.
  set (pk := powerRZ 10 k) in *. clearbody pk. split.
  - apply Rmult_le_reg_r with pk; [exact P|]. unfold Rdiv. rewrite Rmult_assoc, Rinv_l, Rmult_1_r by lra. lra.
  - apply Rmult_lt_reg_r with pk; [exact P|]. unfold Rdiv. rewrite Rmult_assoc, Rinv_l, Rmult_1_r by lra. lra.
Qed.
(** the value of the digits, before and after the carry *)
Lemma print8_value x : x <> 0 -> value (print8 x) = (if Rlt_dec x 0 then -1 else 1) * (IZR (around (Rabs x / powerRZ 10 (exponent x - 8))) * powerRZ 10 (exponent x - 8)).
Proof.
  intros H. unfold print8, value. destruct (Req_EM_T x 0) as [E|_]; [contradiction|].
  set (m := around _). destruct (Z.eqb_spec m (10 ^ 9)) as [E|E]; cbn [p_neg p_digits p_exp].
  - rewrite E. replace (exponent x + 1 - 8)%Z with ((exponent x - 8) + 1)%Z by ring. rewrite p10_add.
    rewrite powerRZ_1. replace (IZR (10 ^ 9)) with (IZR (10 ^ 8) * 10) by (rewrite <- mult_IZR; f_equal; reflexivity).
    generalize (IZR (10 ^ 8)) (powerRZ 10 (exponent x - 8)). intros u v. destruct (Rlt_dec x 0); ring.
  - destruct (Rlt_dec x 0); ring.
Qed.
Lemma print8_nine x : x <> 0 -> nine_digits (print8 x).
Proof.
  intros H. unfold nine_digits, print8. destruct (Req_EM_T x 0) as [E|_]; [contradiction|].
  pose proof (scaled x H) as [A B].
  set (q := Rabs x / powerRZ 10 (exponent x - 8)) in *. set (m := around q).
  assert (M1 : (10 ^ 8 <= m)%Z) by (apply around_mono_IZR, A). assert (M2 : (m <= 10 ^ 9)%Z) by (apply around_mono_IZR'; lra).
  destruct (Z.eqb_spec m (10 ^ 9)) as [E|E]; cbn [p_digits]; lia.
Qed.
Lemma print8_nearly x : nearly x (value (print8 x)).
Proof.
  unfold nearly. destruct (Req_dec x 0) as [->|H].
  - unfold print8. destruct (Req_EM_T 0 0) as [_|N]; [|contradiction N; reflexivity]. unfold value. cbn [p_neg p_digits p_exp].
    replace (1 * (0 * powerRZ 10 (0 - 8)) - 0) with 0 by ring. rewrite Rabs_R0. lra.
  - rewrite (print8_value x H). pose proof (exponent_spec x H) as [A _]. pose proof (p10 (exponent x - 8)) as P.
    replace (exponent x) with ((exponent x - 8) + 8)%Z in A by ring. rewrite p10_add, p8 in A.
    set (pk := powerRZ 10 (exponent x - 8)) in *. clearbody pk. set (q := Rabs x / pk). pose proof (around_half q) as Q.
    assert (X : Rabs x = q * pk) by (unfold q; field; lra).
    assert (Y : (if Rlt_dec x 0 then -1 else 1) * (IZR (around q) * pk) - x = (if Rlt_dec x 0 then -1 else 1) * ((IZR (around q) - q) * pk)).
    { destruct (Rlt_dec x 0) as [N|N].
      - rewrite Rabs_left in X by lra. nra.
      - rewrite Rabs_right in X by lra. nra. }
    rewrite Y. rewrite !Rabs_mult. replace (Rabs (if Rlt_dec x 0 then -1 else 1)) with 1.
    2:{ destruct (Rlt_dec x 0); [rewrite Rabs_left by lra; ring|rewrite Rabs_right by lra; ring]. }
    rewrite (Rabs_right pk) by lra. assert (G : Rabs (IZR (around q) - q) <= 1/2) by (apply Rabs_le; lra).
    replace (IZR (10 ^ 8)) with 100000000 in A by (f_equal; reflexivity).
    assert (D : Rabs (IZR (around q) - q) * pk <= 1/2 * pk) by (apply Rmult_le_compat_r; lra).
    apply Rle_trans with (1/2 * pk); [lra|]. apply Rle_trans with (5 / 10 ^ 9 * (pk * 100000000)); [right; field|]. apply Rmult_le_compat_l; lra.
Qed.
Lemma print8_sign x : x <> 0 -> (p_neg (print8 x) = true <-> x < 0).
Proof.
  intros H. unfold print8. destruct (Req_EM_T x 0) as [E|_]; [contradiction|].
  destruct (Z.eqb _ _); cbn [p_neg]; destruct (Rlt_dec x 0); intuition; discriminate.
Qed.
(** printing a number that already has nine digits gives these digits *)
Lemma print8_fix p : nine_digits p -> print8 (value p) = p.
Proof.
  intros [A B]. destruct p as [neg d e]. unfold value in *. cbn [p_neg p_digits p_exp] in *.
  pose proof (p10 (e - 8)) as P. assert (D : IZR (10 ^ 8) <= IZR d) by (apply IZR_le, A). assert (D' : IZR d <= IZR (10 ^ 9 - 1)) by (apply IZR_le; lia).
  assert (D'' : IZR d < IZR (10 ^ 9)) by (apply IZR_lt, B). assert (D0 : 0 < IZR d) by (apply IZR_lt; lia).
  set (x := (if neg then -1 else 1) * (IZR d * powerRZ 10 (e - 8))).
  assert (AX : Rabs x = IZR d * powerRZ 10 (e - 8)).
  { unfold x. rewrite Rabs_mult. rewrite (Rabs_right (IZR d * _)) by nra. destruct neg; [rewrite Rabs_left by lra|rewrite Rabs_right by lra]; ring. }
  assert (X0 : x <> 0). { intros E. rewrite E, Rabs_R0 in AX. nra. }
  assert (E : exponent x = e).
  { apply exponent_unique. rewrite AX. replace e with ((e - 8) + 8)%Z at 1 by ring. replace (e + 1)%Z with ((e - 8) + 9)%Z by ring.
    rewrite !p10_add, p8, p9. split; nra. }
  unfold print8. destruct (Req_EM_T x 0) as [N|_]; [contradiction|]. rewrite E, AX.
  replace (IZR d * powerRZ 10 (e - 8) / powerRZ 10 (e - 8)) with (IZR d) by (field; lra). rewrite around_IZR.
  assert (NE : (d =? 10 ^ 9)%Z = false) by (apply Z.eqb_neq; lia). rewrite NE. f_equal.
  unfold x. destruct neg; destruct (Rlt_dec _ 0) as [N|N]; try reflexivity; exfalso; nra.
Qed.
Lemma reprint x : print8 (value (print8 x)) = print8 x.
Proof.
  destruct (Req_dec x 0) as [->|H].
  - assert (E : print8 0 = MkP false 0 0) by (unfold print8; destruct (Req_EM_T 0 0); [reflexivity|lra]). rewrite E.
    replace (value (MkP false 0 0)) with 0 by (unfold value; cbn [p_neg p_digits]; ring). exact E.
  - apply print8_fix, print8_nine, H.
Qed.
Lemma nth_error_seq n k : (k < n)%nat -> nth_error (seq 0 n) k = Some k.
Proof. intros H. rewrite (nth_error_nth' _ O) by (rewrite seq_length; exact H). rewrite seq_nth by exact H. reflexivity. Qed.
Lemma savetxt_tabulates k rows a : exists l, savetxt k rows k a = Some l /\ tabulates l rows k a.
Proof.
  unfold savetxt. rewrite Nat.eqb_refl. eexists. split; [reflexivity|]. split; [rewrite map_length, seq_length; reflexivity|].
  intros t Ht. rewrite nth_error_map, nth_error_seq by exact Ht. cbn [option_map]. eexists. split; [reflexivity|].
  split; [rewrite map_length, seq_length; reflexivity|]. intros c Hc. rewrite nth_error_map, nth_error_seq by exact Hc. cbn [option_map].
  eexists. split; [reflexivity|]. split; apply print8_nearly.
Qed.
Lemma nth_error_linspace a b n k : (1 < n)%nat -> (k < n)%nat -> nth_error (linspace a b n) k = Some (a + INR k * ((b - a) / INR (n - 1))).
Proof. intros H K. destruct n as [|[|n]]; [lia|lia|]. unfold linspace. rewrite nth_error_map, nth_error_seq by exact K. reflexivity. Qed.
Lemma axis_point n dt k : (1 < n)%nat -> (k < n)%nat -> nth_error (time_axis n dt) k = Some (INR k * dt * (INR n / INR (n - 1))).
Proof.
  intros H K. unfold time_axis. rewrite nth_error_linspace by assumption. f_equal.
  assert (0 < INR (n - 1)) by (apply lt_0_INR; lia). field. lra.
Qed.

(** * C102 *)
(** every printed number has nine significant digits, the right sign, is within half a unit of the last digit and does not change when it is read and printed again *)
Theorem C102_printed : forall x, nearly x (value (print8 x)) /\ print8 (value (print8 x)) = print8 x /\ (x <> 0 -> nine_digits (print8 x) /\ (p_neg (print8 x) = true <-> x < 0)).
Proof. intros x. split; [apply print8_nearly|]. split; [apply reprint|]. intros H. split; [apply print8_nine, H|apply print8_sign, H]. Qed.
(** save_vq writes one line per step and one column per mode *)
Theorem C102_save_vq : forall steps modes vq, exists l, save_vq steps modes vq = Written l /\ tabulates l steps modes vq.
Proof. intros. unfold save_vq. destruct (savetxt_tabulates modes steps vq) as [l [E T]]. exists l. rewrite E. split; [reflexivity|exact T]. Qed.
(** save_vc accepts exactly the atoms 1..n of the primitive cell and writes the projection of that atom; for any other number nothing is written *)
Theorem C102_save_vc : forall steps atoms vc atom,
  ((1 <= atom <= Z.of_nat atoms)%Z -> exists l, save_vc steps atoms 3 vc atom = Written l /\ tabulates l steps 3 (fun t c => vc t (Z.to_nat (atom - 1)) c)) /\
  (~ (1 <= atom <= Z.of_nat atoms)%Z -> save_vc steps atoms 3 vc atom = Refused).
Proof.
  intros. unfold save_vc. split; intros H.
  - assert (E : ((0 <? atom) && (atom <=? Z.of_nat atoms))%Z%bool = true) by (apply andb_true_intro; split; [apply Z.ltb_lt|apply Z.leb_le]; lia). rewrite E.
    destruct (savetxt_tabulates 3 steps (fun t c => vc t (Z.to_nat (atom - 1)) c)) as [l [W T]]. exists l. rewrite W. split; [reflexivity|exact T].
  - destruct ((0 <? atom) && (atom <=? Z.of_nat atoms))%Z%bool eqn:E; [|reflexivity]. apply andb_prop in E. destruct E as [A B]. apply Z.ltb_lt in A. apply Z.leb_le in B. lia.
Qed.
(** the time plots: frame k should be drawn at k times the time step.  It is drawn at k dt n/(n-1): wrong for every frame after the first one *)
Theorem C102_time_axis_refuted : forall n dt k, (1 < n)%nat -> dt <> 0 -> (0 < k < n)%nat -> exists t, nth_error (time_axis n dt) k = Some t /\ t = INR k * dt * (INR n / INR (n - 1)) /\ t <> INR k * dt.
Proof.
  intros n dt k H D K. exists (INR k * dt * (INR n / INR (n - 1))). split; [apply axis_point; lia|]. split; [reflexivity|]. intros E.
  assert (P : 0 < INR (n - 1)) by (apply lt_0_INR; lia). assert (Pk : 0 < INR k) by (apply lt_0_INR; lia).
  assert (N : INR n = INR (n - 1) + 1) by (rewrite <- S_INR; f_equal; lia).
  assert (Z : INR k * dt * (INR n / INR (n - 1)) - INR k * dt = INR k * dt / INR (n - 1)) by (rewrite N; field; lra).
  assert (Q : INR k * dt / INR (n - 1) = 0) by lra. apply Rmult_integral in Q. destruct Q as [Q|Q]; [apply Rmult_integral in Q; destruct Q; lra|].
  apply Rinv_neq_0_compat in Q; lra.
Qed.
(** what holds: one abscissa per frame, starting at zero, equally spaced, never off by more than one time step, which is reached at the end: the last frame is at n dt instead of (n-1) dt *)
Theorem C102_time_axis_partial : forall n dt, length (time_axis n dt) = n /\
  (forall k t, nth_error (time_axis n dt) k = Some t -> Rabs (t - INR k * dt) <= Rabs dt) /\
  (forall k t u, nth_error (time_axis n dt) k = Some t -> nth_error (time_axis n dt) (S k) = Some u -> u - t = dt * (INR n / INR (n - 1))) /\
  (n <> O -> nth_error (time_axis n dt) 0 = Some 0).
Proof.
  intros n dt. assert (L : length (time_axis n dt) = n) by (unfold time_axis, linspace; destruct n as [|[|n]]; [reflexivity|reflexivity|rewrite map_length, seq_length; reflexivity]).
  split; [exact L|]. split; [|split].
  - intros k t E. assert (K : (k < n)%nat) by (rewrite <- L; apply nth_error_Some; congruence).
    destruct (Nat.eq_dec n 1) as [N1|N1].
    + subst n. assert (k = O) by lia. subst k. cbn in E. injection E as <-. rewrite Rmult_0_l, Rminus_0_r, Rabs_R0. apply Rabs_pos.
    + rename n into N. assert (H1 : (1 < N)%nat) by lia. rewrite (axis_point N dt k H1 K) in E. apply (f_equal (fun o => match o with Some v => v | None => 0 end)) in E. cbn beta iota in E. rewrite <- E. clear E.
      assert (P : 0 < INR (N - 1)) by (apply lt_0_INR; lia).
      assert (E1 : INR N = INR (N - 1) + 1) by (rewrite <- S_INR; f_equal; lia).
      replace (INR k * dt * (INR N / INR (N - 1)) - INR k * dt) with (dt * (INR k / INR (N - 1))) by (rewrite E1; field; lra).
      rewrite Rabs_mult. rewrite <- (Rmult_1_r (Rabs dt)) at 2. apply Rmult_le_compat_l; [apply Rabs_pos|].
      assert (INR k <= INR (N - 1)) by (apply le_INR; lia). assert (0 <= INR k) by apply pos_INR.
      rewrite Rabs_right; [|apply Rle_ge; unfold Rdiv; apply Rmult_le_pos; [lra|left; apply Rinv_0_lt_compat; lra]].
      apply Rmult_le_reg_r with (INR (N - 1)); [lra|]. unfold Rdiv. rewrite Rmult_assoc, Rinv_l by lra. lra.
  - intros k t u E F. assert (K : (S k < n)%nat) by (rewrite <- L; apply nth_error_Some; congruence).
    rewrite axis_point in E by lia. rewrite axis_point in F by lia.
    assert (Et : t = INR k * dt * (INR n / INR (n - 1))) by congruence. assert (Fu : u = INR (S k) * dt * (INR n / INR (n - 1))) by congruence.
    rewrite Et, Fu, S_INR. ring.
  - intros N. destruct n as [|[|n]]; [lia|reflexivity|]. rewrite axis_point by lia. f_equal. cbn [INR]. ring.
Qed.
(** so a recorded instant is shown at two different places by plot_energy and plot_trajectory: the times of an evenly sampled run of n frames *)
Theorem C102_plots_disagree_refuted : forall n dt energy k, (1 < n)%nat -> dt <> 0 -> (0 < k < n)%nat -> length energy = n ->
  option_map fst (nth_error (plot_energy (map (fun j => INR j * dt) (seq 0 n)) energy) k) <> nth_error (time_axis n dt) k.
Proof.
  intros n dt energy k H D K L E. destruct (C102_time_axis_refuted n dt k H D K) as [t [A [B G]]]. rewrite A in E. apply G.
  unfold plot_energy in E.
  assert (X : forall (u v : list R) j, length u = length v -> option_map fst (nth_error (combine u v) j) = nth_error u j).
  { induction u as [|a u IH]; intros [|b v] [|j] Q; cbn in Q; try discriminate; cbn; auto. }
  rewrite X in E by (rewrite map_length, seq_length; auto). rewrite nth_error_map, nth_error_seq in E by lia. cbn in E. injection E as E. symmetry. exact E.
Qed.
(** plot_vc counts atoms from zero, save_vc from one: the file of atom a holds the curve drawn for atom a-1 (real part), for every accepted atom *)
Theorem C102_numbering : forall steps atoms dt vc atom k l, (1 <= atom <= Z.of_nat atoms)%Z -> (k < 3)%nat -> save_vc steps atoms 3 vc atom = Written l ->
  exists curve, plot_vc steps atoms 3 dt vc [(atom - 1)%Z] [Z.of_nat k] = Some [curve] /\
  forall t, (t < steps)%nat -> exists ln p, nth_error l t = Some ln /\ nth_error ln k = Some p /\ exists y, option_map snd (nth_error curve t) = Some y /\ nearly y (value (fst p)).
Proof.
  intros steps atoms dt vc atom k l H K W. destruct (C102_save_vc steps atoms vc atom) as [S _]. destruct (S H) as [l' [W' [_ T]]].
  rewrite W in W'. injection W' as <-. unfold plot_vc. cbn [curves].
  assert (I1 : py_index atoms (atom - 1) = Some (Z.to_nat (atom - 1))).
  { unfold py_index. replace ((0 <=? atom - 1) && (atom - 1 <? Z.of_nat atoms))%Z%bool with true; [reflexivity|]. symmetry. apply andb_true_intro. split; [apply Z.leb_le|apply Z.ltb_lt]; lia. }
  assert (I2 : py_index 3 (Z.of_nat k) = Some k).
  { unfold py_index. replace ((0 <=? Z.of_nat k) && (Z.of_nat k <? Z.of_nat 3))%Z%bool with true; [rewrite Nat2Z.id; reflexivity|]. symmetry. apply andb_true_intro. split; [apply Z.leb_le|apply Z.ltb_lt]; lia. }
  rewrite I1, I2. cbn [option_map concat app]. eexists. split; [reflexivity|]. intros t Ht. destruct (T t Ht) as [ln [A [_ B]]]. destruct (B k K) as [p [C [D _]]].
  exists ln, p. split; [exact A|]. split; [exact C|]. exists (fst (vc t (Z.to_nat (atom - 1)) k)). split; [|exact D].
  assert (X : forall (u v : list R) j, length u = length v -> option_map snd (nth_error (combine u v) j) = nth_error v j).
  { induction u as [|a u IH]; intros [|b v] [|j] Q; cbn in Q; try discriminate; cbn; auto. }
  rewrite X; [rewrite nth_error_map, nth_error_seq by exact Ht; reflexivity|]. destruct (C102_time_axis_partial steps dt) as [L _]. rewrite L, map_length, seq_length. reflexivity.
Qed.

(** the entry [m] of an axis of [len] entries that the Python integer [i] means: from the start, or, for negative numbers, from the end *)
Definition means (len : nat) (i : Z) (m : nat) : Prop := (m < len)%nat /\ (i = Z.of_nat m \/ i = (Z.of_nat m - Z.of_nat len)%Z).
Lemma py_index_means len i m : py_index len i = Some m <-> means len i m.
Proof.
  unfold py_index, means. destruct ((0 <=? i) && (i <? Z.of_nat len))%Z%bool eqn:A.
  - apply andb_prop in A. destruct A as [A B]. apply Z.leb_le in A. apply Z.ltb_lt in B. split; [intros H; injection H as <-; lia|]. intros [H [-> | ->]]; [rewrite Nat2Z.id; reflexivity|lia].
  - destruct ((- Z.of_nat len <=? i) && (i <? 0))%Z%bool eqn:B.
    + apply andb_prop in B. destruct B as [B D]. apply Z.leb_le in B. apply Z.ltb_lt in D. split; [intros H; injection H as <-; lia|]. intros [H [-> | ->]]; [lia|]. f_equal. lia.
    + split; [discriminate|]. intros [H K]. exfalso. apply Bool.andb_false_iff in A. apply Bool.andb_false_iff in B. rewrite Z.leb_gt, Z.ltb_ge in A. rewrite Z.leb_gt, Z.ltb_ge in B. lia.
Qed.
(** a curve that shows the real part of [f] frame by frame *)
Definition shows (steps : nat) (dt : R) (f : nat -> C) (curve : list (R * R)) : Prop :=
  map fst curve = time_axis steps dt /\ length curve = steps /\ forall t, (t < steps)%nat -> option_map snd (nth_error curve t) = Some (Re (f t)).
Lemma curve_shows steps dt f : shows steps dt f (combine (time_axis steps dt) (map (fun t => fst (f t)) (seq 0 steps))).
Proof.
  destruct (C102_time_axis_partial steps dt) as [L _].
  assert (X : forall (u v : list R), length u = length v -> map fst (combine u v) = u /\ length (combine u v) = length u /\ forall j, option_map snd (nth_error (combine u v) j) = nth_error v j).
  { induction u as [|a u IH]; intros [|b v] Q; cbn in Q; try discriminate; cbn; [split; [reflexivity|]; split; [reflexivity|intros [|j]; reflexivity]|].
    destruct (IH v) as [A [B D]]; [lia|]. rewrite A, B. split; [reflexivity|]. split; [reflexivity|]. intros [|j]; cbn; auto. }
  destruct (X (time_axis steps dt) (map (fun t => fst (f t)) (seq 0 steps))) as [A [B D]]; [rewrite L, map_length, seq_length; reflexivity|].
  split; [exact A|]. split; [rewrite B; exact L|]. intros t Ht. rewrite D, nth_error_map, nth_error_seq by exact Ht. reflexivity.
Qed.
Lemma curves_some (f : Z -> option (list (R * R))) (P : Z -> list (R * R) -> Prop) l : (forall i, In i l -> exists c, f i = Some c /\ P i c) -> exists cs, curves f l = Some cs /\ Forall2 P l cs.
Proof.
  induction l as [|i l IH]; intros H; [exists []; split; [reflexivity|constructor]|]. destruct (H i (or_introl eq_refl)) as [c [E Q]]. destruct IH as [cs [E' Q']]; [intros j Hj; apply H; right; exact Hj|].
  exists (c :: cs). cbn [curves]. rewrite E, E'. split; [reflexivity|constructor; assumption].
Qed.
Lemma curves_none (f : Z -> option (list (R * R))) l i : In i l -> f i = None -> curves f l = None.
Proof. induction l as [|j l IH]; intros HI E; [destruct HI|]. destruct HI as [->|H]; cbn [curves]; [rewrite E; reflexivity|]. rewrite (IH H E). destruct (f j); reflexivity. Qed.
(** plot_vq draws, in the order asked for, the real part of the projection onto each mode asked for (onto the first mode when none is), and fails when a
    mode does not exist *)
Theorem C102_plot_vq : forall steps modes dt vq wanted,
  let asked := match wanted with [] => [0%Z] | _ => wanted end in
  ((forall i, In i asked -> exists m, means modes i m) ->
   exists cs, plot_vq steps modes dt vq wanted = Some cs /\ Forall2 (fun i c => exists m, means modes i m /\ shows steps dt (fun t => vq t m) c) asked cs) /\
  (forall i, In i asked -> (forall m, ~ means modes i m) -> plot_vq steps modes dt vq wanted = None).
Proof.
  intros steps modes dt vq wanted asked. unfold plot_vq. fold asked. split.
  - intros H. apply (curves_some _ (fun i c => exists m, means modes i m /\ shows steps dt (fun t => vq t m) c)). intros i Hi. destruct (H i Hi) as [m M]. rewrite (proj2 (py_index_means _ _ _) M).
    eexists. split; [reflexivity|]. exists m. split; [exact M|]. exact (curve_shows steps dt (fun t => vq t m)).
  - intros i Hi N. apply (curves_none _ _ i Hi). destruct (py_index modes i) as [m|] eqn:E; [|reflexivity]. exfalso. apply (N m). apply py_index_means. exact E.
Qed.
(** plot_vc (plot_trajectory and plot_velocity) draw one curve for each atom and coordinate asked for, the coordinates of the first atom first *)
Theorem C102_plot_vc : forall steps atoms ndim dt vc wanted coordinates,
  let asked := match wanted with [] => [0%Z] | _ => wanted end in
  let axes := match coordinates with [] => [0%Z] | _ => coordinates end in
  ((forall i, In i asked -> exists m, means atoms i m) -> (forall k, In k axes -> exists m, means ndim k m) ->
   exists cs, plot_vc steps atoms ndim dt vc wanted coordinates = Some cs /\
     Forall2 (fun e c => exists a k, means atoms (fst e) a /\ means ndim (snd e) k /\ shows steps dt (fun t => vc t a k) c) (list_prod asked axes) cs) /\
  (forall i k, In i asked -> In k axes -> (forall m, ~ means atoms i m) \/ (forall m, ~ means ndim k m) -> plot_vc steps atoms ndim dt vc wanted coordinates = None).
Proof.
  intros steps atoms ndim dt vc wanted coordinates asked axes. unfold plot_vc. fold asked. fold axes.
  set (draw := fun a : Z => curves (fun k => match py_index atoms a, py_index ndim k with
                    | Some a, Some k => Some (combine (time_axis steps dt) (map (fun t => fst (vc t a k)) (seq 0 steps))) | _, _ => None end) axes).
  set (go := fix go (l : list Z) := match l with [] => Some [] | a :: l => match draw a, go l with Some c, Some r => Some (c :: r) | _, _ => None end end).
  change (( (forall i, In i asked -> exists m, means atoms i m) -> (forall k, In k axes -> exists m, means ndim k m) ->
   exists cs, option_map (@concat _) (go asked) = Some cs /\ Forall2 (fun e c => exists a k, means atoms (fst e) a /\ means ndim (snd e) k /\ shows steps dt (fun t => vc t a k) c) (list_prod asked axes) cs) /\
  (forall i k, In i asked -> In k axes -> (forall m, ~ means atoms i m) \/ (forall m, ~ means ndim k m) -> option_map (@concat _) (go asked) = None)). split.
  - intros HA HK. induction asked as [|a l IH]; [exists []; split; [reflexivity|constructor]|].
    destruct IH as [cs [E Q]]; [intros i Hi; apply HA; right; exact Hi|]. destruct (HA a (or_introl eq_refl)) as [a' Ma].
    destruct (curves_some (fun k => match py_index atoms a, py_index ndim k with
                    | Some a, Some k => Some (combine (time_axis steps dt) (map (fun t => fst (vc t a k)) (seq 0 steps))) | _, _ => None end)
              (fun k c => exists m, means ndim k m /\ shows steps dt (fun t => vc t a' m) c) axes) as [c [Ec Qc]].
    { intros k Hk. destruct (HK k Hk) as [k' Mk]. rewrite (proj2 (py_index_means _ _ _) Ma), (proj2 (py_index_means _ _ _) Mk). eexists. split; [reflexivity|]. exists k'. split; [exact Mk|].
      exact (curve_shows steps dt (fun t => vc t a' k')). }
    cbn [go]. fold go. fold (draw a) in Ec. rewrite Ec. destruct (go l) as [r|] eqn:Er; [|discriminate E]. cbn [option_map concat] in E |- *. injection E as E. rewrite E. eexists. split; [reflexivity|]. cbn [list_prod]. apply Forall2_app; [|exact Q].
    clear - Qc Ma. induction Qc as [|k c' ks cs' H Q IH]; cbn [map]; constructor; [|exact IH]. destruct H as [m [M S]]. exists a', m. cbn. auto.
  - intros i k Hi Hk N. assert (D : draw i = None).
    { unfold draw. apply (curves_none _ _ k Hk). destruct (py_index atoms i) as [a|] eqn:E1; [|reflexivity]. destruct (py_index ndim k) as [b|] eqn:E2; [|reflexivity]. exfalso.
      apply py_index_means in E1. apply py_index_means in E2. destruct N as [N|N]; [exact (N a E1)|exact (N b E2)]. }
    assert (G : go asked = None); [|rewrite G; reflexivity]. clear - Hi D. induction asked as [|a l IH]; [destruct Hi|]. destruct Hi as [->|Hi]; cbn [go]; [rewrite D; reflexivity|]. fold go. rewrite (IH Hi). destruct (draw a); reflexivity.
Qed.

(** non-vacuity: a table of two steps, one atom; a time axis of three frames *)
Example C102_nonvacuous :
  (exists l, save_vc 2 1 3 (fun t a c => (INR t + 1, - INR c)) 1 = Written l /\ tabulates l 2 3 (fun t c => (INR t + 1, - INR c))) /\
  save_vc 2 1 3 (fun t a c => (INR t + 1, - INR c)) 2 = Refused /\ nth_error (time_axis 3 (1/2)) 2 = Some (3/2) /\ print8 (-1) = MkP true (10 ^ 8) 0.
Proof.
  split; [apply (proj1 (C102_save_vc 2 1 (fun t a c => (INR t + 1, - INR c)) 1)); lia|]. split; [reflexivity|]. split.
  - rewrite axis_point by lia. f_equal. cbn. field.
  - rewrite <- (print8_fix (MkP true (10 ^ 8) 0)) by (unfold nine_digits; cbn; lia). f_equal. unfold value. cbn [p_neg p_digits p_exp].
    rewrite <- p8, <- p10_add. replace (8 + (0 - 8))%Z with 0%Z by reflexivity. rewrite powerRZ_O. lra.
Qed.
Print Assumptions C102_printed. Print Assumptions C102_save_vq. Print Assumptions C102_save_vc. Print Assumptions C102_time_axis_refuted. Print Assumptions C102_time_axis_partial. Print Assumptions C102_plots_disagree_refuted. Print Assumptions C102_numbering. Print Assumptions C102_plot_vq. Print Assumptions C102_plot_vc.
