(** C111: occupation number and fit temperature; C112: the physical units of the package. *)
From Coquelicot Require Import Coquelicot.
From Coq Require Import Reals Lra Lia Psatz List.
From Verif Require Import OccupancyModel ThermalModel ThermalSpec ThermalProofs ThermalLimitsProps DosModel DosSpec DosProps.
Open Scope R_scope.

(* ---------- specification ---------- *)
(** Mean number of quanta q of an oscillator at temperature T (Boltzmann's constant k), and its mean energy; for a harmonic oscillator the
    mean of |dQ/dt|^2 (twice the kinetic energy) equals the mean energy. *)
Definition quanta (k q T : R) : R := 1 / (exp (q / (k * T)) - 1).
Definition oscillator_energy (k q T : R) : R := q * (quanta k q T + 1/2).
(** relative difference *)
Definition close (eps x y : R) : Prop := Rabs (x - y) <= eps * Rabs y.

(* ---------- facts ---------- *)
Lemma hb_pos : 0 < h_planck_bar. Proof. unfold h_planck_bar, h_planck. assert (P := PI_RGT_0). apply Rdiv_lt_0_compat; lra. Qed.
Lemma kb_pos : 0 < kb_eV. Proof. unfold kb_eV. lra. Qed.
Lemma xcothx x : 0 < x -> x < x * cosh x / sinh x /\ 1 < x * cosh x / sinh x < 1 + x.
Proof.
  intros X. assert (S := sinh_pos x X). assert (L := ThermalLimitsProps.sinh_lt x X). assert (G := sinh_gt x X).
  assert (E : cosh x - sinh x = exp (- x)) by (unfold cosh, sinh; lra). assert (E1 : exp (- x) < 1). { rewrite <- exp_0. apply exp_increasing. lra. }
  assert (E2 := exp_pos (- x)).
  split; [|split]; apply (Rmult_lt_reg_r (sinh x)); try lra; unfold Rdiv; rewrite !Rmult_assoc, ?Rinv_l by lra; rewrite ?Rmult_1_r; nra.
Qed.
Lemma energy_coth k q T : 0 < k -> 0 < q -> 0 < T -> let x := q / (2 * k * T) in oscillator_energy k q T = k * T * (x * cosh x / sinh x).
Proof.
  intros K Q HT x. assert (KT : 0 < k * T) by nra. assert (X : 0 < x) by (apply Rdiv_lt_0_compat; nra). unfold oscillator_energy, quanta. replace (q / (k * T)) with (x + x) by (unfold x; field; split; lra).
  assert (S := sinh_pos x X). unfold sinh, cosh in *. rewrite exp_plus, exp_Ropp in *. assert (E := exp_pos x). set (y := exp x) in *.
  assert (Y : 1 < y). { unfold y. rewrite <- exp_0. apply exp_increasing, X. }
  replace q with (2 * (k * T) * x) by (unfold x; field; split; lra). field. repeat split; nra.
Qed.
(** x coth x increases *)
Lemma xcothx_inc x y : 0 < x -> x < y -> x * cosh x / sinh x < y * cosh y / sinh y.
Proof.
  intros X XY. set (f := fun x => x * cosh x / sinh x). set (df := fun x => (cosh x * sinh x - x) / (sinh x) ^ 2).
  destruct (MVT_cor2 f df x y XY) as [c [E [C1 C2]]].
  - intros c Hc. apply is_derive_Reals. unfold f, df. assert (S := sinh_pos c ltac:(lra)). unfold sinh, cosh in *. auto_derive; [lra|].
    field_simplify_eq; [|lra]. rewrite exp_Ropp. assert (P := exp_pos c). field_simplify_eq; [|lra]. ring.
  - assert (S := sinh_pos c ltac:(lra)). assert (G := sinh_gt c ltac:(lra)). assert (C := cosh_gt1 c ltac:(lra)). assert (0 < df c).
    { unfold df. apply Rdiv_lt_0_compat; [nra|]. apply pow_lt, S. }
    unfold f in E. nra.
Qed.
Lemma energy_increases_T k q T T' : 0 < k -> 0 < q -> 0 < T -> T < T' -> oscillator_energy k q T < oscillator_energy k q T'.
Proof.
  intros K Q HT L. unfold oscillator_energy, quanta. apply Rmult_lt_compat_l; [exact Q|]. apply Rplus_lt_compat_r. unfold Rdiv at 1 3. rewrite !Rmult_1_l.
  assert (KT : 0 < k * T) by nra. assert (KT' : 0 < k * T') by nra. assert (A : 0 < q / (k * T')) by (apply Rdiv_lt_0_compat; nra).
  assert (B : q / (k * T') < q / (k * T)). { apply Rmult_lt_compat_l; [exact Q|]. apply Rinv_lt_contravar; nra. }
  assert (E1 : 1 < exp (q / (k * T'))) by (rewrite <- exp_0; apply exp_increasing, A). assert (E2 := exp_increasing _ _ B). apply Rinv_lt_contravar; [nra|lra].
Qed.
Lemma energy_increases_q k q q' T : 0 < k -> 0 < q -> q < q' -> 0 < T -> oscillator_energy k q T < oscillator_energy k q' T.
Proof.
  intros K Q L HT. rewrite !energy_coth by lra. assert (KT : 0 < k * T) by nra. apply Rmult_lt_compat_l; [exact KT|]. apply xcothx_inc; [apply Rdiv_lt_0_compat; nra|].
  apply Rmult_lt_compat_r; [apply Rinv_0_lt_compat; nra|exact L].
Qed.

(* ---------- C111 ---------- *)
(** Whenever the occupation number is positive, it is the Bose-Einstein number of quanta h/(2 pi) * position at the fit temperature, and twice the
    area is the mean energy of that oscillator (both printed numbers tell the same story). *)
Theorem C111_bose_einstein_partial : forall area position, 0 < position -> position * h_planck_bar < 4 * area ->
  exists T, fit_temperature area position = Some T /\ 0 < T /\
  occupancy area position = quanta kb_eV (h_planck_bar * position) T /\
  2 * area = oscillator_energy kb_eV (h_planck_bar * position) T /\
  kb_eV * T < 2 * area < kb_eV * T + h_planck_bar * position / 2.
Proof.
  intros a p Hp Ha. assert (H := hb_pos). assert (K := kb_pos). assert (Hb : 0 < p * h_planck_bar) by nra.
  assert (O : 0 < occupancy a p).
  { unfold occupancy, dt_Q2_lor. apply (Rmult_lt_reg_r (p * h_planck_bar)); [exact Hb|]. rewrite Rmult_0_l, Rmult_minus_distr_r. unfold Rdiv. rewrite Rmult_assoc, Rinv_l by lra. lra. }
  assert (E2 : 2 * a = h_planck_bar * p * (occupancy a p + 1 / 2)) by (unfold occupancy, dt_Q2_lor; field; lra).
  unfold fit_temperature. destruct (Req_EM_T p 0); [lra|]. destruct (Req_EM_T (occupancy a p) 0); [lra|].
  set (o := occupancy a p) in *. assert (I : 0 < 1 / o) by (apply Rdiv_lt_0_compat; lra). destruct (Rlt_dec 0 (1 / o + 1)); [|lra].
  assert (L : 0 < ln (1 / o + 1)) by (rewrite <- ln_1; apply ln_increasing; lra).
  set (T := h_planck_bar * p / (kb_eV * ln (1 / o + 1))). assert (HT : 0 < T) by (apply Rdiv_lt_0_compat; nra).
  assert (Q : h_planck_bar * p / (kb_eV * T) = ln (1 / o + 1)) by (unfold T; field; repeat split; lra).
  assert (N : o = quanta kb_eV (h_planck_bar * p) T) by (unfold quanta; rewrite Q, exp_ln by lra; field; lra).
  exists T. split; [reflexivity|]. split; [exact HT|]. split; [exact N|].
  assert (EE : 2 * a = oscillator_energy kb_eV (h_planck_bar * p) T) by (unfold oscillator_energy; rewrite <- N; exact E2).
  split; [exact EE|]. rewrite EE, energy_coth by nra. assert (KT : 0 < kb_eV * T) by nra.
  set (x := h_planck_bar * p / (2 * kb_eV * T)). assert (X : 0 < x) by (apply Rdiv_lt_0_compat; nra). destruct (xcothx x X) as (_ & A & B).
  replace (h_planck_bar * p / 2) with (kb_eV * T * x) by (unfold x; field; repeat split; lra). split; nra.
Qed.
Print Assumptions C111_bose_einstein_partial.

(** A larger area gives a larger temperature. *)
Theorem C111_monotone_partial : forall area area' position T T', 0 < position -> position * h_planck_bar < 4 * area -> area < area' ->
  fit_temperature area position = Some T -> fit_temperature area' position = Some T' -> T < T'.
Proof.
  intros a a' p T T' Hp Ha L E E'. destruct (C111_bose_einstein_partial a p Hp Ha) as (t & F & P & _ & Q & _). destruct (C111_bose_einstein_partial a' p Hp ltac:(lra)) as (t' & F' & P' & _ & Q' & _).
  rewrite E in F. injection F as <-. rewrite E' in F'. injection F' as <-. assert (H := hb_pos). assert (K := kb_pos).
  destruct (Rlt_or_le T T') as [|[G|G]]; [assumption| |].
  - assert (W := energy_increases_T kb_eV (h_planck_bar * p) T' T K ltac:(nra) P' G). lra.
  - subst T'. lra.
Qed.
Print Assumptions C111_monotone_partial.

(** Below the zero-point energy of that quantum no temperature is printed (nan); exactly there it is 0. *)
Theorem C111_below_zero_point : forall area position, 0 < position -> 0 <= area ->
  (4 * area < position * h_planck_bar -> fit_temperature area position = None) /\
  (4 * area = position * h_planck_bar -> fit_temperature area position = Some 0).
Proof.
  intros a p Hp Ha. assert (H := hb_pos). assert (Hb : 0 < p * h_planck_bar) by nra. unfold fit_temperature. destruct (Req_EM_T p 0); [lra|].
  assert (E2 : p * h_planck_bar * (occupancy a p + 1 / 2) = 2 * a) by (unfold occupancy, dt_Q2_lor; field; lra).
  split; intros L; set (o := occupancy a p) in *.
  - assert (O : - (1/2) <= o < 0) by (split; nra). destruct (Req_EM_T o 0); [lra|]. assert (A : 1 / o + 1 < 0).
    { assert (1 / o <= -2); [|lra]. apply (Rmult_le_reg_r (- o)); [lra|]. replace (1 / o * - o) with (-1) by (field; lra). lra. }
    destruct (Rlt_dec 0 (1 / o + 1)); [lra|]. destruct (Req_EM_T (1 / o + 1) 0); [lra|reflexivity].
  - assert (O : o = 0) by nra. destruct (Req_EM_T o 0); [reflexivity|lra].
Qed.
Print Assumptions C111_below_zero_point.

(** Refuted: the energy quantum of a mode of frequency nu (in THz, cycles per ps) is h nu, but the code divides by h/(2 pi) nu.  For a mode that
    holds n quanta, whatever n and nu, the printed occupation number is 2 pi n + pi - 1/2. *)
Theorem C111_quantum_refuted : forall area position n, 0 < position -> 0 <= n ->
  2 * area = h_planck * position * (n + 1/2) ->
  occupancy area position = 2 * PI * n + PI - 1/2 /\ n + 2 < occupancy area position.
Proof.
  intros a p n Hp Hn E. assert (P := PI_RGT_0). assert (P3 : 3 < PI) by (assert (X := PI2_3_2); lra).
  assert (O : occupancy a p = 2 * PI * n + PI - 1/2). { unfold occupancy, dt_Q2_lor. rewrite E. unfold h_planck_bar. assert (0 < h_planck) by (unfold h_planck; lra). field. repeat split; lra. }
  split; [exact O|]. rewrite O. nra.
Qed.
Print Assumptions C111_quantum_refuted.
(** ... and the printed temperature of a mode in equilibrium at T0 is always above T0. *)
Theorem C111_temperature_refuted : forall area position T0, 0 < position -> 0 < T0 ->
  2 * area = oscillator_energy kb_eV (h_planck * position) T0 ->
  exists T, fit_temperature area position = Some T /\ T0 < T.
Proof.
  intros a p T0 Hp HT E. assert (H := hb_pos). assert (K := kb_pos). assert (P3 : 3 < PI) by (assert (X := PI2_3_2); lra). assert (HP : 0 < h_planck) by (unfold h_planck; lra).
  assert (LT : h_planck_bar * p < h_planck * p). { apply Rmult_lt_compat_r; [exact Hp|]. unfold h_planck_bar. apply (Rmult_lt_reg_r (2 * PI)); [lra|]. unfold Rdiv. rewrite Rmult_assoc, Rinv_l by lra. nra. }
  assert (Q : 0 < quanta kb_eV (h_planck * p) T0). { unfold quanta. apply Rdiv_lt_0_compat; [lra|]. assert (0 < h_planck * p / (kb_eV * T0)) by (apply Rdiv_lt_0_compat; nra). assert (exp 0 < exp (h_planck * p / (kb_eV * T0))) by (apply exp_increasing; assumption). rewrite exp_0 in *. lra. }
  assert (Z : p * h_planck_bar < 4 * a). { unfold oscillator_energy in E. assert (0 < h_planck * p * quanta kb_eV (h_planck * p) T0) by (apply Rmult_lt_0_compat; [nra|exact Q]). lra. }
  destruct (C111_bose_einstein_partial a p Hp Z) as (T & F & TP & _ & EE & _). exists T. split; [exact F|].
  assert (W := energy_increases_q kb_eV (h_planck_bar * p) (h_planck * p) T0 K ltac:(nra) LT HT).
  destruct (Rlt_or_le T0 T) as [|[G|G]]; [assumption| |].
  - assert (W' := energy_increases_T kb_eV (h_planck_bar * p) T T0 K ltac:(nra) TP G). lra.
  - subst T. lra.
Qed.
Print Assumptions C111_temperature_refuted.

Example C111_nonvacuous : 10 * h_planck_bar < 4 * (1/100) /\ 0 < 10.
Proof. split; [|lra]. unfold h_planck_bar, h_planck. assert (P3 : 3 < PI) by (assert (X := PI2_3_2); lra). apply (Rmult_lt_reg_r (2 * PI)); [lra|]. field_simplify; lra. Qed.

(* ---------- C112 ---------- *)
(** The three Boltzmann constants (J/K, eV/K and u A^2/ps^2/K, the latter per 1/N_a g) and the two Planck constants (J ps and eV ps) are the
    same quantities: they agree within one part in a million. *)
Theorem C112_constants_agree : 
  close (1/10^6) (k_b / conversion_factor) kb_eV /\
  close (1/10^6) (k_b * N_a / 10) kb_amu /\
  close (1/10^6) (h_bar / conversion_factor) h_planck.
Proof.
  unfold close, kb_eV, kb_amu, HarmonicModel.kb_boltzmann, k_b, N_a, conversion_factor, h_bar, h_planck.
  repeat split; apply Rabs_le_between'; rewrite (Rabs_right) by lra; lra.
Qed.
Print Assumptions C112_constants_agree.

(** Refuted for the factor that turns spectra from u A^2 THz into eV ps: it is more than 2 percent larger than the value the other constants imply
    (u A^2/ps^2 is 10/N_a J, and the ratio of the two Boltzmann constants). *)
Theorem C112_conversion_refuted :
  102/100 * (kb_eV / kb_amu) < unit_conversion < 1022/1000 * (kb_eV / kb_amu) /\
  102/100 * (10 / N_a / conversion_factor) < unit_conversion < 1022/1000 * (10 / N_a / conversion_factor).
Proof. unfold unit_conversion, FftModel.fft_unit_conversion, kb_eV, kb_amu, HarmonicModel.kb_boltzmann, N_a, conversion_factor. lra. Qed.
Print Assumptions C112_conversion_refuted.

(** Consequences.  A trajectory at temperature T (mean square mass weighted velocity kB T per degree of freedom, the definition behind
    get_temperature): the classical density of states integrates to between 2 and 2.2 percent too many modes, whatever the quadrature. *)
Theorem C112_modes_counted_refuted : forall weights T frequency power cells modes, 0 < T -> 0 < cells -> 0 < modes -> length frequency = length power ->
  simps weights power frequency = modes * cells * (1/2 * (kb_amu * T)) * unit_conversion ->
  102/100 * modes < simps weights (get_dos T frequency power cells false) frequency < 1022/1000 * modes.
Proof.
  intros w T fr ps c M HT Hc HM L E. destruct (C80_energy w T fr ps c HT Hc L) as (A & _). rewrite E in A. set (I := simps w (get_dos T fr ps c false) fr) in *.
  assert (B : I * boltzmann = M * (DosSpec.eV * kb_amu * unit_conversion)).
  { apply (Rmult_eq_reg_r T); [|lra]. replace (I * boltzmann * T) with (I * (boltzmann * T)) by ring. rewrite A. field. lra. }
  unfold boltzmann, DosSpec.eV, kb_amu, HarmonicModel.kb_boltzmann, unit_conversion, FftModel.fft_unit_conversion in B. lra.
Qed.
Print Assumptions C112_modes_counted_refuted.
(** ... and a classical mode at temperature T is printed with a fit temperature more than one percent above T (for quanta up to 2 percent of kB T). *)
Theorem C112_fit_temperature_refuted : forall T area position, 0 < T -> 0 < position -> h_planck_bar * position <= 2/100 * (kb_eV * T) ->
  2 * area = kb_amu * T * unit_conversion ->
  exists T', fit_temperature area position = Some T' /\ 101/100 * T < T'.
Proof.
  intros T a p HT Hp Hq E. assert (U : 102/100 * (kb_eV * T) < 2 * a) by (rewrite E; unfold kb_eV, kb_amu, HarmonicModel.kb_boltzmann, unit_conversion, FftModel.fft_unit_conversion; lra).
  assert (K := kb_pos). assert (KT : 0 < kb_eV * T) by nra.
  destruct (C111_bose_einstein_partial a p Hp ltac:(lra)) as (T' & F & P & _ & _ & B). exists T'. split; [exact F|]. apply (Rmult_lt_reg_l kb_eV); [exact K|]. lra.
Qed.
Print Assumptions C112_fit_temperature_refuted.

Example C112_nonvacuous : exists power : list R, length [1; 2] = length power /\ simps (fun _ => [1; 1]) power [1; 2] = 3 * 8 * (1/2 * (kb_amu * 300)) * unit_conversion.
Proof. exists [3 * 8 * (1/2 * (kb_amu * 300)) * unit_conversion; 0]. split; [reflexivity|]. unfold simps. cbn. ring. Qed.
