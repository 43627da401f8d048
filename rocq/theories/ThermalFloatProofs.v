From Verif Require Import MemFloatModel MemFloatProofs ThermalFloatModel ThermalFloatSpec.
From Verif Require ThermalModel ThermalProofs ThermalLimitsProps.
From Flocq Require Import Core BinarySingleNaN Relative.
From Coq Require Import Reals ZArith List Lra Lia Psatz.
Import ListNotations.
Open Scope R_scope.

Definition near (a : float64) (r : R) : Prop := exists e, Rabs e <= u /\ val a = r * (1 + e).

Lemma rnd_bpow e : (-1074 <= e)%Z -> rnd (bpow radix2 e) = bpow radix2 e.
Proof. intros H. apply round_generic; [apply valid_rnd_N|]. apply generic_format_bpow. unfold FLT_exp. lia. Qed.
Lemma rnd_rel r : bpow radix2 (-1022) <= r -> exists e, Rabs e <= u /\ rnd r = r * (1 + e).
Proof.
  intros H. destruct (relative_error_N_FLT_ex radix2 (-1074) 53 ltac:(reflexivity) (fun x => negb (Z.even x)) r) as [e [He E]].
  { change (-1074 + 53 - 1)%Z with (-1022)%Z. rewrite Rabs_pos_eq; [exact H|]. apply Rle_trans with (2 := H). apply bpow_ge_0. }
  exists e. split; [|exact E]. unfold u. cbn in He |- *. lra.
Qed.
Lemma rnd_range r m n : (-1074 <= m)%Z -> (-1074 <= n)%Z -> bpow radix2 m <= r <= bpow radix2 n -> bpow radix2 m <= rnd r <= bpow radix2 n.
Proof. intros Hm Hn [H1 H2]. split; [rewrite <- (rnd_bpow m Hm)|rewrite <- (rnd_bpow n Hn)]; apply rnd_mono; assumption. Qed.
Lemma pw_pos a m n : pw a m n -> 0 < val a.
Proof. intros [_ [H _]]. apply Rlt_le_trans with (2 := H). apply bpow_gt_0. Qed.
Lemma no_overflow r m n : (-1074 <= m)%Z -> (n < 1024)%Z -> (-1074 <= n)%Z -> bpow radix2 m <= r <= bpow radix2 n -> Rlt_bool (Rabs (rnd r)) (bpow radix2 1024) = true.
Proof.
  intros Hm Hn Hn' H. destruct (rnd_range r m n Hm Hn' H) as [A B]. apply Rlt_bool_true. rewrite Rabs_pos_eq; [|apply Rle_trans with (2 := A); apply bpow_ge_0].
  apply Rle_lt_trans with (1 := B). apply bpow_lt. exact Hn.
Qed.
Lemma pw_mult a b m n m' n' : pw a m n -> pw b m' n' -> (-1022 <= m + m')%Z -> (n + n' < 1024)%Z -> (-1074 <= n + n')%Z ->
  pw (Bmult mode_NE a b) (m + m') (n + n') /\ near (Bmult mode_NE a b) (val a * val b).
Proof.
  intros [Fa [A1 A2]] [Fb [B1 B2]] H1 H2 H2'.
  assert (Hr : bpow radix2 (m + m') <= val a * val b <= bpow radix2 (n + n')).
  { rewrite !bpow_plus. pose proof (bpow_ge_0 radix2 m). pose proof (bpow_ge_0 radix2 m'). split; apply Rmult_le_compat; lra. }
  pose proof (Bmult_correct 53 1024 _ _ mode_NE a b) as C. change (SpecFloat.fexp 53 1024) with (FLT_exp (-1074) 53) in C. cbn [round_mode] in C.
  rewrite (no_overflow _ (m + m') (n + n')) in C by (assumption || lia). destruct C as [V [F _]]. split; [split|].
  - rewrite F, Fa, Fb. reflexivity.
  - rewrite V. apply rnd_range; [lia|lia|exact Hr].
  - destruct (rnd_rel (val a * val b)) as [e [He E]]; [|exists e; split; [exact He|rewrite V; exact E]]. apply Rle_trans with (2 := proj1 Hr). apply bpow_le. lia.
Qed.
Lemma pw_div a b m n m' n' : pw a m n -> pw b m' n' -> (-1022 <= m - n')%Z -> (n - m' < 1024)%Z -> (-1074 <= n - m')%Z ->
  pw (Bdiv mode_NE a b) (m - n') (n - m') /\ near (Bdiv mode_NE a b) (val a / val b).
Proof.
  intros [Fa [A1 A2]] PB H1 H2 H2'. assert (Hb := pw_pos _ _ _ PB). destruct PB as [Fb [B1 B2]].
  assert (Hr : bpow radix2 (m - n') <= val a / val b <= bpow radix2 (n - m')).
  { unfold Zminus. rewrite !bpow_plus, !bpow_opp. pose proof (bpow_ge_0 radix2 m). pose proof (bpow_gt_0 radix2 m'). pose proof (bpow_gt_0 radix2 n'). unfold Rdiv. split; apply Rmult_le_compat; try lra.
    - left. apply Rinv_0_lt_compat. lra.
    - apply Rinv_le_contravar; lra.
    - left. apply Rinv_0_lt_compat. lra.
    - apply Rinv_le_contravar; lra. }
  pose proof (Bdiv_correct 53 1024 _ _ mode_NE a b ltac:(lra)) as C. change (SpecFloat.fexp 53 1024) with (FLT_exp (-1074) 53) in C. cbn [round_mode] in C.
  rewrite (no_overflow _ (m - n') (n - m')) in C by (assumption || lia). destruct C as [V [F _]]. split; [split|].
  - rewrite F. exact Fa.
  - rewrite V. apply rnd_range; [lia|lia|exact Hr].
  - destruct (rnd_rel (val a / val b)) as [e [He E]]; [|exists e; split; [exact He|rewrite V; exact E]]. apply Rle_trans with (2 := proj1 Hr). apply bpow_le. lia.
Qed.
(** products that overflow *)
Lemma mult_over (a b : float64) m m' : fin a = true -> fin b = true -> bpow radix2 m <= val a -> bpow radix2 m' <= val b -> (1024 <= m + m')%Z ->
  Bmult mode_NE a b = infinity.
Proof.
  intros Fa Fb A B H. pose proof (Bmult_correct 53 1024 _ _ mode_NE a b) as C. change (SpecFloat.fexp 53 1024) with (FLT_exp (-1074) 53) in C. cbn [round_mode] in C.
  assert (Q : bpow radix2 1024 <= val a * val b).
  { apply Rle_trans with (bpow radix2 (m + m')); [apply bpow_le; exact H|]. rewrite bpow_plus. apply Rmult_le_compat; try apply bpow_ge_0; assumption. }
  assert (Q' := rnd_mono _ _ Q). rewrite (rnd_bpow 1024) in Q' by lia.
  rewrite Rlt_bool_false in C by (eapply Rle_trans; [exact Q'|apply Rle_abs]).
  assert (Sa : Bsign a = false). { assert (0 < val a) by (eapply Rlt_le_trans; [apply bpow_gt_0|exact A]). destruct a as [[]|[]| |[] k e He]; try discriminate; try reflexivity; cbn in H0; [lra|]. exfalso. assert (F2R (Float radix2 (Zneg k) e) < 0) by (apply F2R_lt_0; reflexivity). lra. }
  assert (Sb : Bsign b = false). { assert (0 < val b) by (eapply Rlt_le_trans; [apply bpow_gt_0|exact B]). destruct b as [[]|[]| |[] k e He]; try discriminate; try reflexivity; cbn in H0; [lra|]. exfalso. assert (F2R (Float radix2 (Zneg k) e) < 0) by (apply F2R_lt_0; reflexivity). lra. }
  rewrite Sa, Sb in C. apply B2SF_inj. exact C.
Qed.

(** ---------- the code's expressions in the notations of Flocq ---------- *)
Definition n64 (L : libm) (T f : float64) : float64 := Bdiv mode_NE (literal 1 0) (Bminus mode_NE (exp64 L (Bdiv mode_NE (Bmult mode_NE f h64) (Bmult mode_NE k64 T))) (literal 1 0)).
Definition x64 (T f : float64) : float64 := Bdiv mode_NE (Bmult mode_NE h64 f) (Bmult mode_NE (Bmult mode_NE (literal 2 0) k64) T).
Definition z64 (T f : float64) : float64 := Bdiv mode_NE (Bmult mode_NE h64 f) (Bmult mode_NE k64 T).
Lemma energy64_eq L T f d : energy64 L T f d = Bmult mode_NE (Bmult mode_NE (Bmult mode_NE d h64) f) (Bplus mode_NE half64 (n64 L T f)).
Proof. reflexivity. Qed.
Lemma free64_eq L T f d : free64 L T f d = Bmult mode_NE (Bmult mode_NE (Bmult mode_NE d k64) T) (log64 L (Bmult mode_NE (literal 2 0) (sinh64 L (x64 T f)))).
Proof. reflexivity. Qed.
Lemma entropy64_eq L T f d : entropy64 L T f d = Bmult mode_NE d (Bminus mode_NE (Bmult mode_NE (Bmult mode_NE (Bmult mode_NE (Bdiv mode_NE (literal 1 0) (Bmult mode_NE (literal 2 0) T)) h64) f)
  (Bdiv mode_NE (cosh64 L (x64 T f)) (sinh64 L (x64 T f)))) (Bmult mode_NE k64 (log64 L (Bmult mode_NE (literal 2 0) (sinh64 L (x64 T f)))))).
Proof. reflexivity. Qed.
Lemma cv64_eq L T f d : cv64 L T f d = Bdiv mode_NE (Bmult mode_NE (Bmult mode_NE (Bmult mode_NE d k64) (Bmult mode_NE (z64 T f) (z64 T f))) (exp64 L (z64 T f)))
  (Bmult mode_NE (Bminus mode_NE (exp64 L (z64 T f)) (literal 1 0)) (Bminus mode_NE (exp64 L (z64 T f)) (literal 1 0))).
Proof. reflexivity. Qed.

(** ---------- special values ---------- *)
Lemma pos_finite (a : float64) : fin a = true -> 0 < val a -> exists m e H, a = B754_finite false m e H.
Proof.
  intros F P. destruct a as [s|s| |s m e H]; try discriminate; [cbn in P; lra|]. destruct s; [|eauto]. exfalso. cbn in P. assert (F2R (Float radix2 (Zneg m) e) < 0) by (apply F2R_lt_0; reflexivity). lra.
Qed.
Lemma mul_inf (a : float64) : fin a = true -> 0 < val a -> Bmult mode_NE a infinity = infinity.
Proof. intros F P. destruct (pos_finite a F P) as [m [e [H ->]]]. reflexivity. Qed.
Lemma div_inf (a : float64) : fin a = true -> 0 < val a -> Bdiv mode_NE a infinity = B754_zero false.
Proof. intros F P. destruct (pos_finite a F P) as [m [e [H ->]]]. reflexivity. Qed.
Lemma inf_div (a : float64) : fin a = true -> 0 < val a -> Bdiv mode_NE infinity a = infinity.
Proof. intros F P. destruct (pos_finite a F P) as [m [e [H ->]]]. reflexivity. Qed.
Lemma add_zero (a : float64) : fin a = true -> 0 < val a -> Bplus mode_NE a (B754_zero false) = a.
Proof. intros F P. destruct (pos_finite a F P) as [m [e [H ->]]]. reflexivity. Qed.
Lemma inf_minus (a : float64) : fin a = true -> Bminus mode_NE infinity a = infinity.
Proof. intros F. destruct a as [s|s| |s m e H]; try discriminate; reflexivity. Qed.
Lemma mul_nan (a : float64) : Bmult mode_NE a (B754_nan : float64) = B754_nan.
Proof. destruct a; reflexivity. Qed.
Lemma nan_minus (a : float64) : Bminus mode_NE (B754_nan : float64) a = B754_nan.
Proof. destruct a; reflexivity. Qed.
Lemma nan_to_num_fin (a : float64) : fin a = true -> nan_to_num a = a.
Proof. destruct a; try discriminate; reflexivity. Qed.

(** ---------- constants ---------- *)
Lemma literal_ok m e : (0 < m < 2 ^ 53)%Z -> (-1074 <= e <= 900)%Z -> fin (literal m e) = true /\ val (literal m e) = IZR m * bpow radix2 e.
Proof.
  intros Hm He. unfold literal. pose proof (binary_normalize_correct 53 1024 prec53 emax1024 mode_NE m e false) as C. cbv zeta in C. cbn [round_mode] in C. change (SpecFloat.fexp 53 1024) with (FLT_exp (-1074) 53) in C.
  assert (G : rnd (F2R (Float radix2 m e)) = F2R (Float radix2 m e)).
  { apply round_generic; [apply valid_rnd_N|]. apply generic_format_FLT. exists (Float radix2 m e); cbn; [reflexivity|lia|lia]. }
  rewrite G in C. rewrite Rlt_bool_true in C; [destruct C as [A [B _]]; split; [exact B|exact A]|].
  unfold F2R. cbn [Fnum Fexp]. pose proof (bpow_gt_0 radix2 e). rewrite Rabs_pos_eq by (apply Rmult_le_pos; [apply IZR_le; lia|lra]).
  apply Rle_lt_trans with (bpow radix2 53 * bpow radix2 900); [|rewrite <- bpow_plus; apply bpow_lt; lia].
  apply Rmult_le_compat; [apply IZR_le; lia|lra| |apply bpow_le; lia]. change (bpow radix2 53) with (IZR (2 ^ 53)). apply IZR_le. lia.
Qed.
Lemma pw_of (a : float64) m n r : fin a = true /\ val a = r -> bpow radix2 m <= r <= bpow radix2 n -> pw a m n.
Proof. intros [F V] H. split; [exact F|]. rewrite V. exact H. Qed.
Ltac lit := eapply pw_of; [apply literal_ok; lia|cbn; lra].
Lemma pw_h : pw h64 (-71) (-70). Proof. unfold h64. lit. Qed.
Lemma pw_k : pw k64 (-76) (-75). Proof. unfold k64. lit. Qed.
Lemma pw_Na : pw Na64 78 79. Proof. unfold Na64. lit. Qed.
Lemma pw_half : pw half64 (-1) (-1). Proof. unfold half64. lit. Qed.
Lemma pw_one : pw (literal 1 0) 0 0. Proof. lit. Qed.
Lemma pw_two : pw (literal 2 0) 1 1. Proof. lit. Qed.
Lemma pw_thousand : pw thousand64 9 10. Proof. unfold thousand64. lit. Qed.
Lemma near_h : near h64 ThermalModel.h_bar.
Proof.
  exists (val h64 / ThermalModel.h_bar - 1). unfold h64. destruct (literal_ok 7046046239359742 (-123) ltac:(lia) ltac:(lia)) as [_ ->]. unfold ThermalModel.h_bar, u. split; [|field].
  apply Rabs_le. cbn. lra.
Qed.
Lemma near_k : near k64 ThermalModel.k_b.
Proof.
  exists (val k64 / ThermalModel.k_b - 1). unfold k64. destruct (literal_ok 4698103462714906 (-128) ltac:(lia) ltac:(lia)) as [_ ->]. unfold ThermalModel.k_b, u. split; [|field].
  apply Rabs_le. cbn. lra.
Qed.
Lemma max_ok : fin max64 = true /\ val max64 = IZR 9007199254740991 * bpow radix2 971.
Proof.
  unfold max64, literal. pose proof (binary_normalize_correct 53 1024 prec53 emax1024 mode_NE 9007199254740991 971 false) as C. cbv zeta in C. cbn [round_mode] in C. change (SpecFloat.fexp 53 1024) with (FLT_exp (-1074) 53) in C.
  assert (G : rnd (F2R (Float radix2 9007199254740991 971)) = F2R (Float radix2 9007199254740991 971)).
  { apply round_generic; [apply valid_rnd_N|]. apply generic_format_FLT. exists (Float radix2 9007199254740991 971); cbn [Fnum Fexp]; [reflexivity|reflexivity|lia]. }
  rewrite G in C. rewrite Rlt_bool_true in C; [destruct C as [A [B _]]; split; [exact B|exact A]|].
  unfold F2R. cbn [Fnum Fexp]. pose proof (bpow_gt_0 radix2 971). rewrite Rabs_pos_eq by (apply Rmult_le_pos; [apply IZR_le; lia|lra]).
  change 1024%Z with (53 + 971)%Z. rewrite bpow_plus. apply Rmult_lt_compat_r; [lra|]. change (bpow radix2 53) with (IZR (2 ^ 53)). apply IZR_lt. reflexivity.
Qed.

(** ---------- the overflow region ---------- *)
Lemma near_lb a r : near a r -> 0 < r -> r * (1 - u) <= val a.
Proof. intros [e [He ->]] P. apply Rabs_le_inv in He. apply Rmult_le_compat_l; lra. Qed.
Lemma near_ub a r : near a r -> 0 < r -> val a <= r * (1 + u).
Proof. intros [e [He ->]] P. apply Rabs_le_inv in He. apply Rmult_le_compat_l; lra. Qed.
Lemma hk_ratio : 479 / 10 <= ThermalModel.h_bar / ThermalModel.k_b.
Proof. unfold ThermalModel.h_bar, ThermalModel.k_b. lra. Qed.

Section Cold.
Context (L : libm) (HL : overflowing L) (T f d : float64) (C : cold T f d).
Lemma pT : pw T (-60) 60. Proof. apply C. Qed.
Lemma pf : pw f (-60) 60. Proof. apply C. Qed.
Lemma pd : pw d (-60) 60. Proof. apply C. Qed.
Lemma hT : 0 < val T. Proof. apply (pw_pos _ _ _ pT). Qed.
Lemma hf0 : 0 < val f. Proof. apply (pw_pos _ _ _ pf). Qed.
Lemma hd0 : 0 < val d. Proof. apply (pw_pos _ _ _ pd). Qed.
Ltac rng := lia.
(** h f / (c k T), rounded three or four times *)
Lemma quotient (num den : float64) m n m' n' c : 0 < c <= 2 -> pw num m n -> pw den m' n' ->
  (-1022 <= m - n')%Z -> (n - m' < 1024)%Z -> (-1074 <= n - m')%Z ->
  ThermalModel.h_bar * val f * ((1 - u) * (1 - u)) <= val num -> val den <= c * ThermalModel.k_b * val T * ((1 + u) * (1 + u)) ->
  pw (Bdiv mode_NE num den) (m - n') (n - m') /\ 1422 / c <= val (Bdiv mode_NE num den).
Proof.
  intros Hc Pn Pd H1 H2 H3 Hn Hd. destruct (pw_div _ _ _ _ _ _ Pn Pd H1 H2 H3) as [P N]. split; [exact P|].
  assert (Q1 := pw_pos _ _ _ Pn). assert (Q2 := pw_pos _ _ _ Pd). assert (W := near_lb _ _ N ltac:(apply Rdiv_lt_0_compat; assumption)).
  apply Rle_trans with (2 := W). assert (US := u_small). assert (UP := u_pos). assert (K := ThermalProofs.k_pos). assert (Hh := ThermalProofs.h_pos). assert (R := hk_ratio). assert (HT := hT). assert (HF := hf0).
  assert (F30 : 30 * val T <= val f) by apply C.
  assert (E : val num / val den >= 1435 / c).
  { apply Rle_ge. apply (Rmult_le_reg_r (val den)); [exact Q2|]. replace (val num / val den * val den) with (val num) by (field; lra).
    apply Rle_trans with (1435 / c * (c * ThermalModel.k_b * val T * ((1 + u) * (1 + u)))); [apply Rmult_le_compat_l; [apply Rlt_le, Rdiv_lt_0_compat; lra|exact Hd]|].
    replace (1435 / c * (c * ThermalModel.k_b * val T * ((1 + u) * (1 + u)))) with (1435 * ThermalModel.k_b * val T * ((1 + u) * (1 + u))) by (field; lra).
    apply Rle_trans with (2 := Hn). assert (HH : 479 / 10 * ThermalModel.k_b <= ThermalModel.h_bar).
    { apply (Rmult_le_reg_r (/ ThermalModel.k_b)); [apply Rinv_0_lt_compat; exact K|]. rewrite Rmult_assoc, Rinv_r by lra. unfold Rdiv in R. lra. }
    apply Rle_trans with ((479 / 10 * ThermalModel.k_b) * (30 * val T) * ((1 - u) * (1 - u))).
    - replace (479 / 10 * ThermalModel.k_b * (30 * val T) * ((1 - u) * (1 - u))) with (ThermalModel.k_b * val T * (1437 * ((1 - u) * (1 - u)))) by field.
      replace (1435 * ThermalModel.k_b * val T * ((1 + u) * (1 + u))) with (ThermalModel.k_b * val T * (1435 * ((1 + u) * (1 + u)))) by ring.
      apply Rmult_le_compat_l; [apply Rmult_le_pos; lra|]. nra.
    - apply Rmult_le_compat_r; [apply Rmult_le_pos; lra|]. apply Rmult_le_compat; lra. }
  apply Rge_le in E. apply Rle_trans with (1435 / c * (1 - u)); [|apply Rmult_le_compat_r; lra].
  unfold Rdiv. rewrite (Rmult_comm 1422), (Rmult_comm 1435), Rmult_assoc. apply Rmult_le_compat_l; [apply Rlt_le, Rinv_0_lt_compat; lra|]. lra.
Qed.
Lemma hf_pw : pw (Bmult mode_NE h64 f) (-131) (-10) /\ ThermalModel.h_bar * val f * ((1 - u) * (1 - u)) <= val (Bmult mode_NE h64 f).
Proof.
  destruct (pw_mult h64 f (-71) (-70) (-60) 60 pw_h pf ltac:(rng) ltac:(rng) ltac:(rng)) as [P N]. split; [exact P|].
  assert (HF := hf0). assert (Hp := pw_pos _ _ _ pw_h). eapply Rle_trans; [|apply (near_lb _ _ N), Rmult_lt_0_compat; assumption].
  assert (W := near_lb _ _ near_h ThermalProofs.h_pos). assert (US := u_small). assert (UP := u_pos).
  replace (ThermalModel.h_bar * val f * ((1 - u) * (1 - u))) with (ThermalModel.h_bar * (1 - u) * (val f * (1 - u))) by ring. rewrite (Rmult_assoc (val h64)).
  apply Rmult_le_compat_r; [apply Rmult_le_pos; lra|exact W].
Qed.
Lemma mult_comm64 (a b : float64) : Bmult mode_NE a b = Bmult mode_NE b a.
Proof.
  destruct a as [s|s| |s m e H]; destruct b as [s'|s'| |s' m' e' H']; try reflexivity; try (destruct s, s'; reflexivity).
  apply B2SF_inj. unfold Bmult. rewrite !B2SF_SF2B. rewrite Bool.xorb_comm, Pos.mul_comm, Z.add_comm. reflexivity.
Qed.
Lemma kT_pw : pw (Bmult mode_NE k64 T) (-136) (-15) /\ val (Bmult mode_NE k64 T) <= 1 * ThermalModel.k_b * val T * ((1 + u) * (1 + u)).
Proof.
  destruct (pw_mult k64 T (-76) (-75) (-60) 60 pw_k pT ltac:(rng) ltac:(rng) ltac:(rng)) as [P N]. split; [exact P|].
  assert (HF := hT). assert (Hp := pw_pos _ _ _ pw_k). eapply Rle_trans; [apply (near_ub _ _ N), Rmult_lt_0_compat; assumption|].
  assert (W := near_ub _ _ near_k ThermalProofs.k_pos). assert (US := u_small). assert (UP := u_pos).
  replace (1 * ThermalModel.k_b * val T * ((1 + u) * (1 + u))) with (ThermalModel.k_b * (1 + u) * (val T * (1 + u))) by ring. rewrite (Rmult_assoc (val k64)).
  apply Rmult_le_compat_r; [apply Rmult_le_pos; lra|exact W].
Qed.
Lemma double_k : pw (Bmult mode_NE (literal 2 0) k64) (-75) (-74) /\ val (Bmult mode_NE (literal 2 0) k64) <= 2 * ThermalModel.k_b * (1 + u).
Proof.
  destruct (pw_mult (literal 2 0) k64 1 1 (-76) (-75) pw_two pw_k ltac:(rng) ltac:(rng) ltac:(rng)) as [P N]. split; [exact P|].
  destruct (pw_mult (literal 2 0) k64 1 1 (-76) (-75) pw_two pw_k ltac:(rng) ltac:(rng) ltac:(rng)) as [_ _].
  assert (V : val (Bmult mode_NE (literal 2 0) k64) = 2 * val k64).
  { destruct (mult_fin _ _ (proj1 P)) as [_ [_ V]]. rewrite V. destruct (literal_ok 2 0 ltac:(lia) ltac:(lia)) as [_ ->]. unfold k64. destruct (literal_ok 4698103462714906 (-128) ltac:(lia) ltac:(lia)) as [_ ->].
    replace (IZR 2 * bpow radix2 0 * (IZR 4698103462714906 * bpow radix2 (-128))) with (IZR 4698103462714906 * bpow radix2 (-127)) by (cbn; lra).
    replace (2 * (IZR 4698103462714906 * bpow radix2 (-128))) with (IZR 4698103462714906 * bpow radix2 (-127)) by (cbn; lra).
    apply round_generic; [apply valid_rnd_N|]. apply generic_format_FLT. exists (Float radix2 4698103462714906 (-127)); [reflexivity|reflexivity|cbn; lia]. }
  rewrite V. assert (W := near_ub _ _ near_k ThermalProofs.k_pos). lra.
Qed.
Lemma kkT_pw : pw (Bmult mode_NE (Bmult mode_NE (literal 2 0) k64) T) (-135) (-14) /\ val (Bmult mode_NE (Bmult mode_NE (literal 2 0) k64) T) <= 2 * ThermalModel.k_b * val T * ((1 + u) * (1 + u)).
Proof.
  destruct double_k as [PK VK]. destruct (pw_mult _ T (-75) (-74) (-60) 60 PK pT ltac:(rng) ltac:(rng) ltac:(rng)) as [P N]. split; [exact P|].
  assert (HF := hT). assert (Hp := pw_pos _ _ _ PK). eapply Rle_trans; [apply (near_ub _ _ N), Rmult_lt_0_compat; assumption|].
  assert (US := u_small). assert (UP := u_pos).
  replace (2 * ThermalModel.k_b * val T * ((1 + u) * (1 + u))) with (2 * ThermalModel.k_b * (1 + u) * (val T * (1 + u))) by ring. rewrite (Rmult_assoc (val (Bmult mode_NE (literal 2 0) k64))).
  apply Rmult_le_compat_r; [apply Rmult_le_pos; lra|exact VK].
Qed.
Lemma x_big : fin (x64 T f) = true /\ 711 <= val (x64 T f).
Proof.
  destruct hf_pw as [P1 V1]. destruct kkT_pw as [P2 V2]. destruct (quotient _ _ _ _ _ _ 2 ltac:(lra) P1 P2 ltac:(rng) ltac:(rng) ltac:(rng) V1 V2) as [[F _] B]. split; [exact F|]. unfold x64. lra.
Qed.
Lemma z_big : pw (z64 T f) 5 126 /\ 711 <= val (z64 T f).
Proof.
  destruct hf_pw as [P1 V1]. destruct kT_pw as [P2 V2]. destruct (quotient _ _ _ _ _ _ 1 ltac:(lra) P1 P2 ltac:(rng) ltac:(rng) ltac:(rng) V1 V2) as [[F P] B].
  split; [|unfold z64; lra]. split; [exact F|]. unfold z64. split; [|eapply Rle_trans; [apply P|apply bpow_le; lia]]. apply Rle_trans with (2 := B). cbn. lra.
Qed.
Lemma sinh_over : Bmult mode_NE (literal 2 0) (sinh64 L (x64 T f)) = infinity.
Proof. destruct x_big as [F B]. destruct HL as [HE _]. destruct (HE _ F B) as [_ [-> _]]. apply mul_inf; [apply pw_two|apply (pw_pos _ _ _ pw_two)]. Qed.
Lemma n_cold : n64 L T f = B754_zero false.
Proof.
  unfold n64. rewrite (mult_comm64 f h64). fold (z64 T f). destruct z_big as [[F P] B]. destruct HL as [HE _]. destruct (HE _ F B) as [-> _].
  rewrite inf_minus by apply pw_one. apply div_inf; [apply pw_one|apply (pw_pos _ _ _ pw_one)].
Qed.
Lemma energy_cold : energy64 L T f d = Bmult mode_NE (Bmult mode_NE (Bmult mode_NE d h64) f) half64.
Proof. rewrite energy64_eq, n_cold, add_zero; [reflexivity|apply pw_half|apply (pw_pos _ _ _ pw_half)]. Qed.
Lemma free_cold : free64 L T f d = infinity.
Proof.
  rewrite free64_eq. rewrite sinh_over. destruct HL as [_ ->].
  destruct (pw_mult d k64 (-60) 60 (-76) (-75) pd pw_k ltac:(rng) ltac:(rng) ltac:(rng)) as [P1 _]. destruct (pw_mult _ T _ _ (-60) 60 P1 pT ltac:(rng) ltac:(rng) ltac:(rng)) as [P2 _].
  apply mul_inf; [apply P2|apply (pw_pos _ _ _ P2)].
Qed.
Lemma entropy_cold : entropy64 L T f d = B754_nan.
Proof.
  rewrite entropy64_eq. destruct x_big as [F B]. destruct HL as [HE _]. destruct (HE _ F B) as [_ [-> ->]].
  change (Bdiv mode_NE infinity infinity) with (B754_nan : float64). rewrite mul_nan, nan_minus. apply mul_nan.
Qed.
Lemma cv_cold : cv64 L T f d = B754_nan.
Proof.
  rewrite cv64_eq. destruct z_big as [PZ B]. destruct HL as [HE _]. destruct (HE _ (proj1 PZ) B) as [-> _].
  rewrite inf_minus by apply pw_one. change (Bmult mode_NE infinity infinity) with infinity.
  destruct (pw_mult d k64 (-60) 60 (-76) (-75) pd pw_k ltac:(rng) ltac:(rng) ltac:(rng)) as [P1 _]. destruct (pw_mult _ _ _ _ _ _ PZ PZ ltac:(rng) ltac:(rng) ltac:(rng)) as [P2 _].
  destruct (pw_mult _ _ _ _ _ _ P1 P2 ltac:(rng) ltac:(rng) ltac:(rng)) as [P3 _]. rewrite mul_inf; [reflexivity|apply P3|apply (pw_pos _ _ _ P3)].
Qed.

(** ---------- the exact values ---------- *)
Let t := val T.
Let w := val f.
Let zz := ThermalModel.h_bar * w / (ThermalModel.k_b * t).
Lemma zz_big : 1437 <= zz.
Proof.
  assert (K := ThermalProofs.k_pos). assert (R := hk_ratio). assert (HT := hT). assert (HF := hf0). assert (F30 : 30 * val T <= val f) by apply C.
  unfold zz. replace (ThermalModel.h_bar * w / (ThermalModel.k_b * t)) with (ThermalModel.h_bar / ThermalModel.k_b * (w / t)) by (field; split; [unfold t; lra|lra]).
  assert (30 <= w / t). { apply (Rmult_le_reg_r t); [exact HT|]. replace (w / t * t) with w by (field; unfold t; lra). exact F30. }
  replace 1437 with (479 / 10 * 30) by lra. apply Rmult_le_compat; lra.
Qed.
Lemma exp_16 : (1 + zz / 16) ^ 16 <= exp zz.
Proof.
  assert (Z := zz_big).
  assert (P : forall n x, exp (INR n * x) = exp x ^ n). { induction n as [|n IH]; intros y; [cbn; rewrite Rmult_0_l; apply exp_0|]. rewrite S_INR, Rmult_plus_distr_r, Rmult_1_l, exp_plus, IH. cbn [pow]. ring. }
  assert (Q := P 16%nat (zz / 16)). replace (INR 16 * (zz / 16)) with zz in Q by (cbn; field). rewrite Q. apply pow_incr. split; [lra|]. apply exp_ineq1_le.
Qed.
Lemma exp_huge : zz ^ 3 * 10 ^ 21 <= exp zz.
Proof.
  assert (Z := zz_big). eapply Rle_trans; [|apply exp_16]. set (v := 1 + zz / 16). assert (V : 90 <= v) by (unfold v; lra).
  replace (v ^ 16) with (v ^ 3 * v ^ 13) by ring. assert (A : zz ^ 3 <= 4096 * v ^ 3). { replace (4096 * v ^ 3) with ((16 * v) ^ 3) by ring. apply pow_incr. unfold v. lra. }
  assert (B : 90 ^ 13 <= v ^ 13) by (apply pow_incr; lra). assert (Q : 0 <= v ^ 3) by (apply pow_le; lra). assert (0 <= zz ^ 3) by (apply pow_le; lra).
  apply Rle_trans with (4096 * v ^ 3 * (90 ^ 13 / 4096)); [|replace (4096 * v ^ 3 * (90 ^ 13 / 4096)) with (v ^ 3 * 90 ^ 13) by field; apply Rmult_le_compat_l; assumption].
  apply Rmult_le_compat; try lra.
Qed.
Lemma n_tiny : 0 < ThermalModel.n t w /\ ThermalModel.n t w * zz <= 2 / 10 ^ 21 /\ ThermalModel.n t w * zz ^ 2 <= 2 / 10 ^ 21.
Proof.
  assert (Z := zz_big). assert (E := exp_huge). unfold ThermalModel.n. replace (w * ThermalModel.h_bar / (ThermalModel.k_b * t)) with zz by (unfold zz; rewrite Rmult_comm; reflexivity).
  assert (Z3 : zz <= zz ^ 3) by nra. assert (Z2 : zz ^ 2 <= zz ^ 3) by nra. assert (G : zz ^ 3 * (10 ^ 21 / 2) <= exp zz - 1) by lra.
  assert (P : 0 < exp zz - 1) by lra. assert (I := Rinv_0_lt_compat _ P). split; [exact I|].
  assert (J : / (exp zz - 1) <= / (zz ^ 3 * (10 ^ 21 / 2))) by (apply Rinv_le_contravar; lra).
  assert (Q : / (zz ^ 3 * (10 ^ 21 / 2)) * zz ^ 3 = 2 / 10 ^ 21) by (field; lra).
  split; (eapply Rle_trans; [|apply Req_le, Q]); apply Rmult_le_compat; try lra; nra.
Qed.
Lemma energy_exact : ThermalModel.h_bar * w / 2 < ThermalModel.energy_term t w <= ThermalModel.h_bar * w / 2 * (1 + / 10 ^ 18).
Proof.
  assert (HT := hT). assert (HF := hf0). rewrite ThermalProofs.energy_def by assumption. destruct n_tiny as [N0 [N1 _]]. assert (Z := zz_big). assert (Hh := ThermalProofs.h_pos).
  assert (N2 : ThermalModel.n t w <= / 10 ^ 18 / 2) by nra. assert (P : 0 < ThermalModel.h_bar * w) by (apply Rmult_lt_0_compat; assumption). split; nra.
Qed.
Lemma entropy_exact : 0 < ThermalModel.entropy_term t w <= ThermalModel.k_b / 10 ^ 20.
Proof.
  assert (HT := hT). assert (HF := hf0). assert (K := ThermalProofs.k_pos). split; [apply ThermalProofs.entropy_pos; assumption|].
  rewrite <- ThermalProofs.entropies by assumption. destruct n_tiny as [N0 [N1 N2]]. assert (Z := zz_big). unfold ThermalModel.entropy2_term. destruct (Rlt_dec 0 w); [|contradiction].
  set (n := ThermalModel.n t w) in *. assert (L1 : ln (n + 1) <= n). { assert (E := exp_ineq1_le n). rewrite <- (ln_exp n) at 2. apply Rcomplements.ln_le; lra. }
  assert (L2 : ln n = ln (n + 1) - zz).
  { unfold n, ThermalModel.n. replace (w * ThermalModel.h_bar / (ThermalModel.k_b * t)) with zz by (unfold zz; rewrite Rmult_comm; reflexivity).
    assert (G : 1 < exp zz) by (apply ThermalProofs.exp_gt1; lra). replace (/ (exp zz - 1) + 1) with (exp zz / (exp zz - 1)) by (field; lra). unfold Rdiv. rewrite ln_mult by (try apply Rinv_0_lt_compat; lra). rewrite !ln_Rinv, ln_exp by lra. ring. }
  rewrite L2. replace (ThermalModel.k_b * ((n + 1) * ln (n + 1) - n * (ln (n + 1) - zz))) with (ThermalModel.k_b * (ln (n + 1) + n * zz)) by ring.
  unfold Rdiv. apply Rmult_le_compat_l; [lra|]. assert (n <= n * zz) by nra. lra.
Qed.
Lemma cv_exact : 0 < ThermalModel.cv_term t w <= ThermalModel.k_b / 10 ^ 20.
Proof.
  assert (HT := hT). assert (HF := hf0). assert (K := ThermalProofs.k_pos). split; [apply ThermalProofs.cv_pos; assumption|].
  unfold ThermalModel.cv_term. destruct (Req_EM_T w 0); [unfold w in *; lra|]. change (ThermalModel.z t w) with zz. destruct n_tiny as [N0 [_ N2]].
  unfold ThermalModel.n in *. replace (w * ThermalModel.h_bar / (ThermalModel.k_b * t)) with zz in * by (unfold zz; rewrite Rmult_comm; reflexivity). assert (E := exp_huge). assert (Z := zz_big).
  assert (Z2 : 1 <= zz ^ 2) by nra. assert (Z3 : 1 <= zz ^ 3) by (apply pow_R1_Rle; lra). set (y := exp zz) in *. assert (Y : 10 ^ 21 <= y) by lra.
  replace (ThermalModel.k_b * zz ^ 2 * y / (y - 1) ^ 2) with (ThermalModel.k_b * (/ (y - 1) * zz ^ 2 * (1 + / (y - 1)))) by (field; lra).
  unfold Rdiv. apply Rmult_le_compat_l; [lra|]. assert (/ (y - 1) <= 1) by (rewrite <- Rinv_1; apply Rinv_le_contravar; lra). nra.
Qed.
Lemma free_exact : 0 < ThermalModel.free_term t w < ThermalModel.h_bar * w / 2.
Proof.
  assert (HT := hT). assert (HF := hf0). assert (K := ThermalProofs.k_pos). assert (Z := zz_big). rewrite ThermalProofs.free_def by assumption.
  assert (X : ThermalModel.h_bar * w / (2 * ThermalModel.k_b * t) = zz / 2) by (unfold zz; field; unfold t; lra). rewrite X.
  assert (HW : ThermalModel.h_bar * w / 2 = ThermalModel.k_b * t * (zz / 2)) by (unfold zz; field; unfold t; lra). rewrite HW.
  assert (E : exp (zz / 2) >= 2) by (assert (Q := exp_ineq1_le (zz / 2)); lra). assert (E' : exp (- (zz / 2)) < 1) by (rewrite <- exp_0; apply exp_increasing; lra). assert (E0 := exp_pos (- (zz / 2))).
  assert (KT : 0 < ThermalModel.k_b * t) by (apply Rmult_lt_0_compat; assumption).
  assert (SH : 1 < 2 * sinh (zz / 2) < exp (zz / 2)) by (unfold sinh; lra). split.
  - apply Rmult_lt_0_compat; [exact KT|]. rewrite <- ln_1. apply ln_increasing; lra.
  - apply Rmult_lt_compat_l; [exact KT|]. rewrite <- (ln_exp (zz / 2)) at 2. apply ln_increasing; lra.
Qed.
(** the computed zero-point energy *)
Lemma energy_value : fin (energy64 L T f d) = true /\ Rabs (val (energy64 L T f d) - val d * (ThermalModel.h_bar * w / 2)) <= / 10 ^ 15 / 2 * (val d * (ThermalModel.h_bar * w / 2)).
Proof.
  rewrite energy_cold. destruct (pw_mult d h64 (-60) 60 (-71) (-70) pd pw_h ltac:(rng) ltac:(rng) ltac:(rng)) as [P1 [e1 [H1 V1]]].
  destruct (pw_mult _ f _ _ (-60) 60 P1 pf ltac:(rng) ltac:(rng) ltac:(rng)) as [P2 [e2 [H2 V2]]].
  destruct (pw_mult _ half64 _ _ (-1) (-1) P2 pw_half ltac:(rng) ltac:(rng) ltac:(rng)) as [P3 [e3 [H3 V3]]]. split; [apply P3|].
  rewrite V3, V2, V1. destruct near_h as [e0 [H0 ->]]. replace (val half64) with (/ 2) by (unfold half64; destruct (literal_ok 1 (-1) ltac:(lia) ltac:(lia)) as [_ ->]; cbn; lra).
  assert (HD := hd0). assert (HF := hf0). assert (Hh := ThermalProofs.h_pos). fold w.
  set (E := val d * (ThermalModel.h_bar * w / 2)). assert (PE : 0 < E) by (unfold E; apply Rmult_lt_0_compat; [assumption|]; apply Rmult_lt_0_compat; [apply Rmult_lt_0_compat; assumption|lra]).
  replace (val d * (ThermalModel.h_bar * (1 + e0)) * (1 + e1) * w * (1 + e2) * / 2 * (1 + e3) - E) with (E * ((1 + e0) * (1 + e1) * ((1 + e2) * (1 + e3)) - 1)) by (unfold E; field).
  rewrite Rabs_mult, (Rabs_pos_eq E) by lra. rewrite (Rmult_comm E). apply Rmult_le_compat_r; [lra|].
  assert (US : u <= / 10 ^ 15 * / 9) by (unfold u; cbn; lra). assert (UP := u_pos). 
  assert (M : forall a b p q, Rabs a <= p -> Rabs b <= q -> Rabs ((1 + a) * (1 + b) - 1) <= p + q + p * q).
  { intros a b p q Ha Hb. replace ((1 + a) * (1 + b) - 1) with (a + b + a * b) by ring. eapply Rle_trans; [apply Rabs_triang|]. apply Rplus_le_compat; [eapply Rle_trans; [apply Rabs_triang|lra]|]. rewrite Rabs_mult. apply Rmult_le_compat; try apply Rabs_pos; assumption. }
  assert (A1 := M e0 e1 u u H0 H1). assert (A2 := M e2 e3 u u H2 H3).
  assert (A3 := M _ _ _ _ A1 A2). replace ((1 + e0) * (1 + e1) * ((1 + e2) * (1 + e3)) - 1) with ((1 + ((1 + e0) * (1 + e1) - 1)) * (1 + ((1 + e2) * (1 + e3) - 1)) - 1) by ring.
  eapply Rle_trans; [exact A3|]. assert (US6 := u_small). assert (UU : u * u <= / 1000000 * u) by (apply Rmult_le_compat_r; lra). set (p := u + u + u * u). assert (PP : 0 <= p <= 3 / 1000000) by (unfold p; split; nra).
  assert (PPP : p * p <= 3 / 1000000 * p) by (apply Rmult_le_compat_r; lra). unfold p in *. lra.
Qed.
End Cold.

(** ---------- frequency zero ---------- *)
Section Zero.
Context (L : libm) (HZ : exact_at_zero L) (T d : float64) (PT : pw T (-60) 60) (Pd : pw d (-60) 60).
Lemma mul_zero (a : float64) : fin a = true -> 0 < val a -> Bmult mode_NE a (literal 0 0) = literal 0 0.
Proof. intros F P. destruct (pos_finite a F P) as [m [e [H ->]]]. reflexivity. Qed.
Lemma zero_mul (a : float64) : fin a = true -> 0 < val a -> Bmult mode_NE (literal 0 0) a = literal 0 0.
Proof. intros F P. destruct (pos_finite a F P) as [m [e [H ->]]]. reflexivity. Qed.
Lemma zero_div (a : float64) : fin a = true -> 0 < val a -> Bdiv mode_NE (literal 0 0) a = literal 0 0.
Proof. intros F P. destruct (pos_finite a F P) as [m [e [H ->]]]. reflexivity. Qed.
Lemma div_zero (a : float64) : fin a = true -> 0 < val a -> Bdiv mode_NE a (literal 0 0) = infinity.
Proof. intros F P. destruct (pos_finite a F P) as [m [e [H ->]]]. reflexivity. Qed.
Lemma add_inf (a : float64) : fin a = true -> 0 < val a -> Bplus mode_NE a infinity = infinity.
Proof. intros F P. destruct (pos_finite a F P) as [m [e [H ->]]]. reflexivity. Qed.
Lemma one_minus_one : Bminus mode_NE (literal 1 0) (literal 1 0) = literal 0 0. Proof. vm_compute. reflexivity. Qed.
Ltac pos P := first [apply P|exact (pw_pos _ _ _ P)].
Lemma z_zero : z64 T (literal 0 0) = literal 0 0.
Proof.
  unfold z64. rewrite mul_zero by pos pw_h. destruct (pw_mult k64 T (-76) (-75) (-60) 60 pw_k PT ltac:(lia) ltac:(lia) ltac:(lia)) as [P _]. apply zero_div; pos P.
Qed.
Lemma double_k_pw : pw (Bmult mode_NE (literal 2 0) k64) (-75) (-74).
Proof. apply (pw_mult (literal 2 0) k64 1 1 (-76) (-75) pw_two pw_k); lia. Qed.
Lemma x_zero : x64 T (literal 0 0) = literal 0 0.
Proof.
  unfold x64. rewrite mul_zero by pos pw_h. destruct (pw_mult _ T (-75) (-74) (-60) 60 double_k_pw PT ltac:(lia) ltac:(lia) ltac:(lia)) as [P _]. apply zero_div; pos P.
Qed.
Lemma energy_zero : energy64 L T (literal 0 0) d = B754_nan.
Proof.
  rewrite energy64_eq. unfold n64. rewrite (mult_comm64 (literal 0 0) h64). fold (z64 T (literal 0 0)). rewrite z_zero. destruct HZ as [-> _]. rewrite one_minus_one.
  rewrite div_zero by pos pw_one. rewrite add_inf by pos pw_half. destruct (pw_mult d h64 (-60) 60 (-71) (-70) Pd pw_h ltac:(lia) ltac:(lia) ltac:(lia)) as [P1 _]. rewrite mul_zero by pos P1. reflexivity.
Qed.
Lemma entropy_zero : entropy64 L T (literal 0 0) d = B754_nan.
Proof.
  rewrite entropy64_eq. rewrite x_zero. destruct HZ as [_ [-> [-> _]]]. rewrite div_zero by pos pw_one.
  destruct (pw_mult (literal 2 0) T 1 1 (-60) 60 pw_two PT ltac:(lia) ltac:(lia) ltac:(lia)) as [P1 _].
  destruct (pw_div (literal 1 0) _ 0 0 _ _ pw_one P1 ltac:(lia) ltac:(lia) ltac:(lia)) as [P2 _]. destruct (pw_mult _ h64 _ _ (-71) (-70) P2 pw_h ltac:(lia) ltac:(lia) ltac:(lia)) as [P3 _].
  rewrite (mul_zero _ (proj1 P3) (pw_pos _ _ _ P3)). change (Bmult mode_NE (literal 0 0) infinity) with (B754_nan : float64). rewrite nan_minus. apply mul_nan.
Qed.
Lemma cv_zero : cv64 L T (literal 0 0) d = B754_nan.
Proof.
  rewrite cv64_eq. rewrite z_zero. destruct HZ as [-> _]. rewrite one_minus_one. destruct (pw_mult d k64 (-60) 60 (-76) (-75) Pd pw_k ltac:(lia) ltac:(lia) ltac:(lia)) as [P1 _].
  change (Bmult mode_NE (literal 0 0) (literal 0 0)) with (literal 0 0). rewrite mul_zero by pos P1. rewrite zero_mul by pos pw_one. reflexivity.
Qed.
Lemma free_zero : free64 L T (literal 0 0) d = B754_infinity true.
Proof.
  rewrite free64_eq. rewrite x_zero. destruct HZ as [_ [-> [_ E]]]. rewrite mul_zero by pos pw_two. rewrite E.
  destruct (pw_mult d k64 (-60) 60 (-76) (-75) Pd pw_k ltac:(lia) ltac:(lia) ltac:(lia)) as [P1 _]. destruct (pw_mult _ T _ _ (-60) 60 P1 PT ltac:(lia) ltac:(lia) ltac:(lia)) as [P2 _].
  destruct (pos_finite _ (proj1 P2) (pw_pos _ _ _ P2)) as [m [e [H ->]]]. reflexivity.
Qed.
End Zero.

(** ---------- with exact arithmetic the same expressions are those of ThermalModel ---------- *)
Lemma exact_terms T f d : 0 < T -> 0 < f ->
  g_energy exact exact_kernels T f d = d * ThermalModel.energy_term T f /\ g_free exact exact_kernels T f d = d * ThermalModel.free_term T f /\
  g_entropy exact exact_kernels T f d = d * ThermalModel.entropy_term T f /\ g_cv exact exact_kernels T f d = d * ThermalModel.cv_term T f.
Proof.
  intros HT HF. unfold g_energy, g_free, g_entropy, g_cv, g_n, g_x, g_z, g_coth, ThermalModel.energy_term, ThermalModel.free_term, ThermalModel.entropy_term, ThermalModel.cv_term, ThermalModel.n, ThermalModel.z, ThermalModel.coth.
  cbn [c_exp c_sinh c_cosh c_log c_h c_k c_half exact_kernels exact mul div add sub one two]. cbv zeta.
  destruct (Req_EM_T f 0); [lra|]. destruct (Rlt_dec 0 f); [|lra]. split; [|split; [|split]].
  - unfold Rdiv. rewrite ?Rmult_1_l. ring.
  - ring.
  - ring.
  - unfold Rdiv. cbn [pow]. rewrite ?Rmult_1_r. ring.
Qed.
