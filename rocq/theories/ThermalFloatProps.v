(** C139: the thermodynamic functions in double precision at low temperatures, where exp, sinh and cosh overflow (dynaphopy/analysis/thermal_properties.py). *)
From Verif Require Import MemFloatModel ThermalFloatModel ThermalFloatSpec MemFloatProofs ThermalFloatProofs.
From Verif Require ThermalModel.
From Flocq Require Import Core BinarySingleNaN.
From Coq Require Import Reals ZArith List Lra Lia Psatz.
Import ListNotations.
Open Scope R_scope.

(** the samples handed to the quadrature *)
Lemma nth_samples term T frequency dos i d0 : length dos = length frequency -> (i < length frequency)%nat ->
  nth i (samples64 term T frequency dos) d0 = nan_to_num (term T (nth i frequency d0) (nth i dos d0)).
Proof.
  intros HL Hi. unfold samples64. rewrite (nth_indep _ d0 (nan_to_num (term T (fst (d0, d0)) (snd (d0, d0))))) by (rewrite map_length, combine_length; lia).
  rewrite (map_nth (fun p => nan_to_num (term T (fst p) (snd p)))). rewrite combine_nth by (symmetry; exact HL). reflexivity.
Qed.
Lemma nth_zero_first l i d0 : (0 < i)%nat -> nth i (zero_first64 l) d0 = nth i l d0.
Proof. intros H. destruct l, i; try lia; reflexivity. Qed.
Notation zero64 := (literal 0 0).

(** the expressions are those of the textbook: evaluated in exact arithmetic they are ThermalModel's summands (whose identities are C34, C57 and C97) *)
Theorem C139_exact : forall T f d : R, 0 < T -> 0 < f ->
  g_energy exact exact_kernels T f d = d * ThermalModel.energy_term T f /\ g_free exact exact_kernels T f d = d * ThermalModel.free_term T f /\
  g_entropy exact exact_kernels T f d = d * ThermalModel.entropy_term T f /\ g_cv exact exact_kernels T f d = d * ThermalModel.cv_term T f.
Proof. exact exact_terms. Qed.
Print Assumptions C139_exact.
Example C139_nonvacuous_exact : 0 < 300 /\ 0 < 12. Proof. lra. Qed.

(** total energy: at every frequency above 30 THz per kelvin the computed sample is the exact one up to 1e-15 *)
Theorem C139_energy_partial : forall L T frequency dos i, overflowing L -> length dos = length frequency -> (i < length frequency)%nat ->
  let f := nth i frequency zero64 in let d := nth i dos zero64 in cold T f d ->
  let sample := nth i (samples64 (energy64 L) T frequency dos) zero64 in
  is_finite sample = true /\ Rabs (B2R sample - B2R d * ThermalModel.energy_term (B2R T) (B2R f)) <= / 10 ^ 15 * (B2R d * ThermalModel.energy_term (B2R T) (B2R f)).
Proof.
  intros L T fr ds i HL Hl Hi f d C sample. unfold sample. rewrite nth_samples by assumption. fold f d.
  destruct (energy_value L HL T f d C) as [F V]. rewrite nan_to_num_fin by exact F. split; [exact F|].
  destruct (energy_exact T f d C) as [E1 E2]. assert (D := hd0 T f d C). set (z := ThermalModel.h_bar * val f / 2) in *. set (e := ThermalModel.energy_term (val T) (val f)) in *.
  assert (Z : 0 < z) by (unfold z; apply Rmult_lt_0_compat; [apply Rmult_lt_0_compat; [apply ThermalProofs.h_pos|apply (hf0 T f d C)]|lra]).
  replace (val (energy64 L T f d) - val d * e) with ((val (energy64 L T f d) - val d * z) - val d * (e - z)) by ring. eapply Rle_trans; [apply Rabs_triang|]. rewrite Rabs_Ropp, (Rabs_pos_eq (val d * (e - z))) by (apply Rmult_le_pos; lra).
  assert (A : val d * (e - z) <= / 10 ^ 18 * (val d * z)) by nra. assert (B : val d * z <= val d * e) by (apply Rmult_le_compat_l; lra). assert (P : 0 < val d * z) by (apply Rmult_lt_0_compat; assumption). lra.
Qed.
Print Assumptions C139_energy_partial.

(** entropy and heat capacity: inf/inf becomes 0, and the exact value is below 1e-20 k *)
Theorem C139_entropy_cv_partial : forall L T frequency dos i, overflowing L -> length dos = length frequency -> (i < length frequency)%nat ->
  let f := nth i frequency zero64 in let d := nth i dos zero64 in cold T f d ->
  nth i (samples64 (entropy64 L) T frequency dos) zero64 = zero64 /\ nth i (samples64 (cv64 L) T frequency dos) zero64 = zero64 /\
  0 < B2R d * ThermalModel.entropy_term (B2R T) (B2R f) <= B2R d * (ThermalModel.k_b / 10 ^ 20) /\
  0 < B2R d * ThermalModel.cv_term (B2R T) (B2R f) <= B2R d * (ThermalModel.k_b / 10 ^ 20).
Proof.
  intros L T fr ds i HL Hl Hi f d C. rewrite !nth_samples by assumption. fold f d. rewrite (entropy_cold L HL T f d C), (cv_cold L HL T f d C).
  destruct (entropy_exact T f d C) as [S1 S2]. destruct (cv_exact T f d C) as [V1 V2]. assert (D := hd0 T f d C).
  split; [reflexivity|]. split; [reflexivity|]. split; split; try (apply Rmult_lt_0_compat; assumption); apply Rmult_le_compat_l; lra.
Qed.
Print Assumptions C139_entropy_cv_partial.

(** the free energy: log(2 sinh x) is infinite, and np.nan_to_num makes it the largest double, although the exact sample lies below the zero-point energy *)
Theorem C139_free_energy_refuted : forall L T frequency dos i, overflowing L -> length dos = length frequency -> (0 < i < length frequency)%nat ->
  let f := nth i frequency zero64 in let d := nth i dos zero64 in cold T f d ->
  let sample := nth i (zero_first64 (samples64 (free64 L) T frequency dos)) zero64 in
  is_finite sample = true /\ 10 ^ 308 <= B2R sample /\
  0 < B2R d * ThermalModel.free_term (B2R T) (B2R f) < B2R d * (ThermalModel.h_bar * B2R f / 2).
Proof.
  intros L T fr ds i HL Hl [H0 Hi] f d C sample. unfold sample. rewrite nth_zero_first by exact H0. rewrite nth_samples by assumption. fold f d. rewrite (free_cold L HL T f d C).
  change (nan_to_num infinity) with max64. destruct max_ok as [F V]. destruct (free_exact T f d C) as [E1 E2]. assert (D := hd0 T f d C).
  split; [exact F|]. split; [|split; [apply Rmult_lt_0_compat; assumption|apply Rmult_lt_compat_l; assumption]].
  rewrite V. rewrite <- (IZR_Zpower radix2) by lia. rewrite <- mult_IZR. rewrite pow_IZR. apply IZR_le. vm_compute. discriminate.
Qed.
Print Assumptions C139_free_energy_refuted.

(** and the free energy that is printed is then infinite, as soon as the integral is above 2^960 (or has overflowed itself) *)
Theorem C139_printed_infinite : forall L simps64 T frequency dos,
  let integral := simps64 (zero_first64 (samples64 (free64 L) T frequency dos)) frequency in
  integral = infinity \/ (is_finite integral = true /\ bpow radix2 960 <= B2R integral) ->
  get_free_energy64 L simps64 T frequency dos = infinity.
Proof.
  intros L simps64 T fr ds integral H. change (get_free_energy64 L simps64 T fr ds) with (Bdiv mode_NE (Bmult mode_NE integral Na64) thousand64).
  assert (E : Bmult mode_NE integral Na64 = infinity).
  { destruct H as [->|[F B]].
    - rewrite mult_comm64. apply mul_inf; [apply pw_Na|apply (pw_pos _ _ _ pw_Na)].
    - apply (mult_over _ _ 960 78); [exact F|apply pw_Na|exact B|apply pw_Na|lia]. }
  rewrite E. apply inf_div; [apply pw_thousand|apply (pw_pos _ _ _ pw_thousand)].
Qed.
Print Assumptions C139_printed_infinite.

(** frequency zero: every quotient is 0*inf or 0/0 and becomes 0, as ThermalModel says; the free energy's logarithm is -inf (overwritten at index 0 only) *)
Theorem C139_zero_frequency : forall L T frequency dos i, exact_at_zero L -> length dos = length frequency -> (i < length frequency)%nat ->
  nth i frequency zero64 = zero64 -> pw T (-60) 60 -> pw (nth i dos zero64) (-60) 60 ->
  nth i (samples64 (energy64 L) T frequency dos) zero64 = zero64 /\ nth i (samples64 (entropy64 L) T frequency dos) zero64 = zero64 /\
  nth i (samples64 (cv64 L) T frequency dos) zero64 = zero64 /\ nth 0 (zero_first64 (samples64 (free64 L) T frequency dos)) zero64 = zero64 /\
  ((0 < i)%nat -> B2R (nth i (zero_first64 (samples64 (free64 L) T frequency dos)) zero64) <= - 10 ^ 308).
Proof.
  intros L T fr ds i HZ Hl Hi Hf PT Pd. rewrite !nth_samples by assumption. rewrite Hf, (energy_zero L HZ T _ PT Pd), (entropy_zero L HZ T _ PT), (cv_zero L HZ T _ PT Pd).
  split; [reflexivity|]. split; [reflexivity|]. split; [reflexivity|]. split; [destruct (samples64 (free64 L) T fr ds); reflexivity|].
  intros H0. rewrite nth_zero_first by exact H0. rewrite nth_samples by assumption. rewrite Hf, (free_zero L HZ T _ PT Pd). change (nan_to_num (B754_infinity true)) with (Bopp max64). rewrite B2R_Bopp. destruct max_ok as [_ V]. rewrite V.
  apply Ropp_le_contravar. rewrite <- (IZR_Zpower radix2) by lia. rewrite <- mult_IZR. rewrite pow_IZR. apply IZR_le. vm_compute. discriminate.
Qed.
Print Assumptions C139_zero_frequency.

(** a C library with the behaviour assumed, and 64 THz at 1 K *)
Definition some_libm : libm := MkLibm
  (fun x => if is_finite x then if Rle_dec 711 (B2R x) then infinity else literal 1 0 else x)
  (fun x => if is_finite x then if Rle_dec 711 (B2R x) then infinity else literal 0 0 else x)
  (fun x => if is_finite x then if Rle_dec 711 (B2R x) then infinity else literal 1 0 else x)
  (fun x => match x with B754_zero _ => B754_infinity true | _ => x end).
Example C139_nonvacuous_libm : overflowing some_libm /\ exact_at_zero some_libm.
Proof.
  split.
  - split; [|reflexivity]. intros x F V. cbn [exp64 sinh64 cosh64 some_libm]. rewrite F. destruct (Rle_dec 711 (B2R x)); [|contradiction]. repeat split.
  - unfold exact_at_zero. cbn [exp64 sinh64 cosh64 log64 some_libm]. change (is_finite zero64) with true. change (B2R zero64) with 0. cbn iota. destruct (Rle_dec 711 0); [lra|]. repeat split.
Qed.
Example C139_nonvacuous_cold : cold (literal 1 0) (literal 64 0) (literal 3 0).
Proof.
  assert (P : forall m, (0 < m < 2 ^ 53)%Z -> pw (literal m 0) (-60) 60).
  { intros m H. destruct (literal_ok m 0 H ltac:(lia)) as [F V]. split; [exact F|]. rewrite V. replace (IZR m * bpow radix2 0) with (IZR m) by (cbn; lra). split.
    - apply Rle_trans with (bpow radix2 0); [apply bpow_le; lia|]. change (bpow radix2 0) with 1. apply IZR_le. lia.
    - apply Rle_trans with (bpow radix2 53); [|apply bpow_le; lia]. change (bpow radix2 53) with (IZR (2 ^ 53)). apply IZR_le. lia. }
  split; [apply P; lia|]. split; [apply P; lia|]. split; [apply P; lia|].
  destruct (literal_ok 1 0 ltac:(lia) ltac:(lia)) as [_ ->]. destruct (literal_ok 64 0 ltac:(lia) ltac:(lia)) as [_ ->]. cbn. lra.
Qed.
(** the theorem at work: frequencies 0 and 64 THz at 1 K *)
Example C139_nonvacuous_free : 10 ^ 308 <= B2R (nth 1 (zero_first64 (samples64 (free64 some_libm) (literal 1 0) [zero64; literal 64 0] [zero64; literal 3 0])) zero64).
Proof.
  apply (C139_free_energy_refuted some_libm (literal 1 0) [zero64; literal 64 0] [zero64; literal 3 0] 1 (proj1 C139_nonvacuous_libm) eq_refl ltac:(cbn; lia) C139_nonvacuous_cold).
Qed.

(** what is printed, from the integral of the quadrature: per mole, and in kJ for the energies.  N below is 6.022140857e23. *)
Definition per_mole : R := 6022140857 * 10 ^ 14.
Definition close_to (a : float64) (r : R) : Prop := is_finite a = true /\ Rabs (B2R a - r) <= / 10 ^ 15 * r.
Lemma near_Na : exists e, Rabs e <= / 2 ^ 53 /\ B2R Na64 = per_mole * (1 + e).
Proof.
  exists (B2R Na64 / per_mole - 1). unfold Na64. destruct (literal_ok 8973689164221287 26 ltac:(lia) ltac:(lia)) as [_ ->]. unfold per_mole. split; [|field].
  apply Rabs_le. cbn. lra.
Qed.
Lemma molar (I : float64) : pw I (-300) 300 ->
  close_to (Bmult mode_NE I Na64) (B2R I * per_mole) /\ close_to (Bdiv mode_NE (Bmult mode_NE I Na64) thousand64) (B2R I * per_mole / 1000).
Proof.
  intros P. destruct (pw_mult I Na64 _ _ _ _ P pw_Na ltac:(lia) ltac:(lia) ltac:(lia)) as [P1 [e1 [E1 V1]]].
  destruct (pw_div _ thousand64 _ _ _ _ P1 pw_thousand ltac:(lia) ltac:(lia) ltac:(lia)) as [P2 [e2 [E2 V2]]].
  destruct near_Na as [e0 [E0 V0]]. pose proof (pw_pos _ _ _ P) as Hp.
  assert (T : B2R thousand64 = 1000). { unfold thousand64. destruct (literal_ok 1000 0 ltac:(lia) ltac:(lia)) as [_ ->]. cbn. lra. }
  assert (N : 0 < per_mole) by (unfold per_mole; lra).
  assert (U : u <= / 10 ^ 15 / 4) by (unfold u; cbn; lra). assert (U0 : / 2 ^ 53 <= / 10 ^ 15 / 4) by lra.
  apply Rabs_le_inv in E0. apply Rabs_le_inv in E1. apply Rabs_le_inv in E2. assert (B : 0 < B2R I * per_mole) by nra. set (r := B2R I * per_mole) in *.
  assert (Q1 : - (/ 10 ^ 15 * (2/3)) <= (1 + e0) * (1 + e1) - 1 <= / 10 ^ 15 * (2/3)).
  { set (t := / 10 ^ 15) in *. assert (0 < t <= 1 / 1000) by (unfold t; lra). split; nra. }
  assert (Q2 : - (/ 10 ^ 15) <= (1 + e0) * (1 + e1) * (1 + e2) - 1 <= / 10 ^ 15).
  { set (t := / 10 ^ 15) in *. assert (0 < t <= 1 / 1000) by (unfold t; lra). set (w := (1 + e0) * (1 + e1)) in *. split; nra. }
  split; split; [apply P1| |apply P2|].
  - rewrite V1, V0. replace (B2R I * (per_mole * (1 + e0)) * (1 + e1) - r) with (r * ((1 + e0) * (1 + e1) - 1)) by (unfold r; ring).
    apply Rabs_le. set (t := / 10 ^ 15) in *. assert (0 < t) by (unfold t; lra). split; nra.
  - rewrite V2, V1, V0, T. replace (B2R I * (per_mole * (1 + e0)) * (1 + e1) / 1000 * (1 + e2) - r / 1000) with (r / 1000 * ((1 + e0) * (1 + e1) * (1 + e2) - 1)) by (unfold r; field).
    apply Rabs_le. set (t := / 10 ^ 15) in *. assert (0 < r / 1000) by lra. split; nra.
Qed.
Theorem C139_printed_partial : forall L simps64 T frequency dos,
  let integral term := simps64 (samples64 (term L) T frequency dos) frequency in
  let free_integral := simps64 (zero_first64 (samples64 (free64 L) T frequency dos)) frequency in
  (pw (integral entropy64) (-300) 300 -> close_to (get_entropy64 L simps64 T frequency dos) (B2R (integral entropy64) * per_mole)) /\
  (pw (integral cv64) (-300) 300 -> close_to (get_cv64 L simps64 T frequency dos) (B2R (integral cv64) * per_mole)) /\
  (pw (integral energy64) (-300) 300 -> close_to (get_total_energy64 L simps64 T frequency dos) (B2R (integral energy64) * per_mole / 1000)) /\
  (pw free_integral (-300) 300 -> close_to (get_free_energy64 L simps64 T frequency dos) (B2R free_integral * per_mole / 1000)).
Proof.
  intros L simps64 T fr ds integral free_integral. split; [|split; [|split]]; intros P; [exact (proj1 (molar _ P))|exact (proj1 (molar _ P))|exact (proj2 (molar _ P))|exact (proj2 (molar _ P))].
Qed.
Print Assumptions C139_printed_partial.
Example C139_nonvacuous_printed : pw (literal 1 (-70)) (-300) 300.
Proof. split; [reflexivity|]. destruct (literal_ok 1 (-70) ltac:(lia) ltac:(lia)) as [_ ->]. rewrite Rmult_1_l. split; apply bpow_le; lia. Qed.
