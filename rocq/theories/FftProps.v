(** C70-C72: the FFT power spectra. *)
From Verif Require Import SpectraModel SpectraSpec SpectraProofs FftModel FftSpec FftProofs.
From Coq Require Import Lra Lia Permutation.
From Coq Require Import List. Import ListNotations.
Open Scope R_scope.

(** number of samples per piece for this call *)
Definition samples (f0 f1 dt : R) (data : list C) : nat := Z.to_nat (piece_length (Z.of_nat (length data)) (around (1 / (dt * (f1 - f0))))).

(** C70: one non-negative value per requested frequency. *)
Theorem C70_defined_and_nonnegative :
  forall argsort f0 f1 fr data dt, 0 < dt -> (1 <= length data)%nat -> (1 <= around (1 / (dt * (f1 - f0))))%Z ->
  sorts argsort (fftfreq (samples f0 f1 dt data) dt) ->
  exists out, numpy_power argsort (f0 :: f1 :: fr) data dt = Some out /\ length out = length (f0 :: f1 :: fr) /\ forall y, In y out -> 0 <= y.
Proof.
  intros argsort f0 f1 fr data dt Hdt HN Hp Hs.
  destruct (numpy_power_structure argsort f0 f1 fr data dt Hdt HN Hp Hs) as [Hn [pieces [_ [Hne [HL [out [E [L V]]]]]]]].
  exists out. split; [exact E|]. split; [exact L|]. intros y Hy. apply In_nth_error in Hy as [k Hk].
  assert (Hlt : (k < length (f0 :: f1 :: fr))%nat) by (rewrite <- L; apply nth_error_Some; congruence).
  destruct (nth_error (f0 :: f1 :: fr) k) as [f|] eqn:Ef; [|apply nth_error_None in Ef; lia].
  destruct (V k f Ef) as [y' [E1 E2]]. rewrite Hk in E1. injection E1 as <-.
  set (n := samples f0 f1 dt data) in *.
  set (ps := map (avg dt data pieces) (seq 0 n)) in *.
  assert (B : forall k, (k < n)%nat -> 0 <= nth k ps 0 <= rsum ps).
  { assert (P : forall k, (k < n)%nat -> 0 <= avg dt data pieces k).
    { intros j Hj. unfold avg. apply Rmult_le_pos.
      - induction pieces as [|q pieces IH]; cbn; [lra|]. apply Rplus_le_le_0_compat; [apply piece_power_nonneg; lra|].
        clear - Hdt. induction pieces as [|q' pieces IH]; cbn; [lra|]. apply Rplus_le_le_0_compat; [apply piece_power_nonneg; lra|exact IH].
      - left. apply Rinv_0_lt_compat, lt_0_INR. destruct pieces; [congruence|cbn; lia]. }
    assert (Q : forall l : list R, (forall a, In a l -> 0 <= a) -> forall a, In a l -> 0 <= a <= rsum l).
    { induction l as [|b l IH]; intros H a Ha; [destruct Ha|]. cbn. fold (rsum l).
      assert (S0 : 0 <= rsum l). { clear IH Ha. induction l as [|d l IH]; cbn; [lra|]. fold (rsum l). apply Rplus_le_le_0_compat; [apply H; right; left; reflexivity|].
        apply IH. intros e [<-|He]; [apply H; left; reflexivity|apply H; right; right; exact He]. }
      assert (0 <= b) by (apply H; left; reflexivity). destruct Ha as [<-|Ha]; [lra|].
      specialize (IH ltac:(intros; apply H; right; assumption) a Ha). lra. }
    intros j Hj. apply Q; [|apply nth_In; unfold ps; rewrite map_length, seq_length; exact Hj].
    intros a Ha. unfold ps in Ha. apply in_map_iff in Ha as [i [<- Hi]]. apply in_seq in Hi. apply P. lia. }
  exact (proj1 (value_bounds argsort n dt ps Hn Hdt Hs f y 0 (rsum ps) B E2)).
Qed.
Print Assumptions C70_defined_and_nonnegative.
(** Multiplying the series by a complex number c multiplies the spectrum by |c|^2: the spectrum is
    quadratic in the amplitude and blind to a global phase.  No hypothesis at all. *)
Theorem C70_quadratic_and_phase_blind :
  forall argsort fr c data dt,
  numpy_power argsort fr (map (Cmult c) data) dt = option_map (map (Rmult ((Cmod c) ^ 2))) (numpy_power argsort fr data dt).
Proof. exact numpy_power_scale. Qed.
Print Assumptions C70_quadratic_and_phase_blind.
(** For real series opposite resolved frequencies get equal values. *)
Theorem C70_real_series_symmetric :
  forall argsort f0 f1 fr data dt s k k' out, 0 < dt -> (1 <= length data)%nat -> (1 <= around (1 / (dt * (f1 - f0))))%Z ->
  let n := samples f0 f1 dt data in
  sorts argsort (fftfreq n dt) -> (forall z, In z data -> snd z = 0) -> resolved n s -> resolved n (- s) ->
  nth_error (f0 :: f1 :: fr) k = Some (grid_frequency n dt s) -> nth_error (f0 :: f1 :: fr) k' = Some (grid_frequency n dt (- s)) ->
  numpy_power argsort (f0 :: f1 :: fr) data dt = Some out -> nth_error out k = nth_error out k'.
Proof.
  intros argsort f0 f1 fr data dt s k k' out Hdt HN Hp n Hs Hr R1 R2 K1 K2 E.
  destruct (numpy_power_structure argsort f0 f1 fr data dt Hdt HN Hp Hs) as [Hn [pieces [_ [Hne [HL [out' [E' [L V]]]]]]]].
  rewrite E in E'. injection E' as <-. fold (samples f0 f1 dt data) in Hn, HL, V. fold n in Hn, HL, V.
  destruct (V _ _ K1) as [y [Y1 Y2]]. destruct (V _ _ K2) as [y' [Y1' Y2']]. rewrite Y1, Y1'. f_equal.
  rewrite (value_at_grid argsort n dt) in Y2, Y2' by assumption. injection Y2 as <-. injection Y2' as <-.
  destruct (position_spec n s Hn R1) as [P1 _]. destruct (position_spec n (- s) Hn R2) as [P2 _].
  rewrite !nth_map_seq by assumption. apply avg_ext. intros p Hpp. destruct (HL p Hpp) as [A [B D]].
  rewrite !piece_power_position by assumption. rewrite real_symmetric; [reflexivity|].
  intros z Hz. apply Hr. unfold slice in Hz.
  assert (I : In z (skipn (Z.to_nat (fst p)) data)).
  { rewrite <- (firstn_skipn (Z.to_nat (snd p) - Z.to_nat (fst p)) (skipn (Z.to_nat (fst p)) data)). apply in_or_app. left. exact Hz. }
  rewrite <- (firstn_skipn (Z.to_nat (fst p)) data). apply in_or_app. right. exact I.
Qed.
Print Assumptions C70_real_series_symmetric.
(** All four back ends return the same array; each column is the spectrum of one coordinate, times
    the unit conversion, whatever the other columns are. *)
Theorem C70_columns_and_backends :
  forall algorithm argsort fr dt columns out, (2 <= algorithm <= 5)%nat -> 0 <= dt ->
  get_fft_spectra algorithm argsort fr dt columns = Some out ->
  length out = length fr /\
  forall c d, nth_error columns c = Some d -> exists s, numpy_power argsort fr d dt = Some s /\
  forall k, (k < length fr)%nat -> exists row, nth_error out k = Some row /\ length row = length columns /\
    nth_error row c = Some (nth k s 0 * (10585723 / 100000000000)).
Proof.
  intros alg argsort fr dt columns out Ha Hdt E.
  assert (E' : obind (omap_list (fun d => numpy_power argsort fr d dt) columns) (fun psd =>
    Some (map (fun k => map (fun col => nth k col 0 * fft_unit_conversion) psd) (seq 0 (length fr)))) = Some out).
  { rewrite <- E. unfold get_fft_spectra. destruct alg as [|[|[|[|[|[|a]]]]]]; try lia; cbn [fft_backend obind]; try reflexivity.
    f_equal. assert (Q : forall l, omap_list (fun d => numpy_power argsort fr d dt) l = omap_list (fun d => cuda_power argsort fr d dt) l).
    { induction l as [|d l IH]; [reflexivity|]. cbn [omap_list]. rewrite IH, backends_agree by exact Hdt. reflexivity. }
    apply Q. }
  clear E. destruct (omap_list _ columns) as [psd|] eqn:Ep; [|discriminate]. cbn [obind] in E'. injection E' as <-.
  destruct (omap_nth _ _ _ Ep) as [L N]. split; [rewrite map_length, seq_length; reflexivity|].
  intros c d Hc. specialize (N c d Hc). assert (Hlt : (c < length psd)%nat) by (rewrite L; apply nth_error_Some; congruence).
  destruct (nth_error psd c) as [s|] eqn:Es; [|apply nth_error_None in Es; lia]. exists s. split; [symmetry; exact N|].
  intros k Hk. eexists. split; [apply map_nth_error; rewrite (nth_error_nth' _ 0%nat) by (rewrite seq_length; exact Hk); rewrite seq_nth by exact Hk; reflexivity|].
  split; [rewrite map_length; exact L|]. cbn [plus]. rewrite (map_nth_error _ _ _ Es). reflexivity.
Qed.
Print Assumptions C70_columns_and_backends.

(** C71: a pure oscillation A e^{2 pi i f t} at a resolved frequency f (of either sign) gives its
    largest value at f itself: every returned value is at most W dt |A|^2, and the value at f is that. *)
Theorem C71_tone_peaks_at_its_frequency :
  forall argsort f0 f1 fr A N dt s, 0 < dt -> (1 <= N)%nat -> (1 <= around (1 / (dt * (f1 - f0))))%Z ->
  let n := Z.to_nat (piece_length (Z.of_nat N) (around (1 / (dt * (f1 - f0))))) in
  sorts argsort (fftfreq n dt) -> resolved n s ->
  exists out, numpy_power argsort (f0 :: f1 :: fr) (tone A (grid_frequency n dt s) dt N) dt = Some out /\
  (forall y, In y out -> y <= (Cmod A) ^ 2 * lag_weight n * dt) /\
  (forall k, nth_error (f0 :: f1 :: fr) k = Some (grid_frequency n dt s) -> nth_error out k = Some ((Cmod A) ^ 2 * lag_weight n * dt)).
Proof.
  intros argsort f0 f1 fr A N dt s Hdt HN Hp n Hs Rs. set (data := tone A (grid_frequency n dt s) dt N).
  assert (Ld : length data = N) by (unfold data, tone; rewrite map_length, seq_length; reflexivity).
  destruct (numpy_power_structure argsort f0 f1 fr data dt Hdt ltac:(lia) Hp ltac:(rewrite Ld; exact Hs)) as [Hn [pieces [_ [Hne [HL [out [E [L V]]]]]]]].
  rewrite Ld in *. fold n in Hn, HL, V.
  exists out. split; [exact E|]. set (ps := map (avg dt data pieces) (seq 0 n)) in *.
  assert (T : forall p, In p pieces -> exists A', Cmod A' = Cmod A /\ is_tone A' n s (slice data p)).
  { intros p Hpp. destruct (HL p Hpp) as [P1 [_ P3]]. apply tone_slice; assumption. }
  assert (B : forall k, (k < n)%nat -> 0 <= nth k ps 0 <= (Cmod A) ^ 2 * lag_weight n * dt).
  { intros k Hk. unfold ps. rewrite nth_map_seq by exact Hk. apply avg_bounds; [exact Hne|]. intros p Hpp.
    destruct (T p Hpp) as [A' [EA HA]]. destruct (HL p Hpp) as [_ [_ P3]]. rewrite piece_power_nth by lia. split.
    - apply Rmult_le_pos; [apply Cmod_ge_0|lra].
    - apply Rmult_le_compat_r; [lra|]. rewrite <- EA. apply (tone_dft_le A' n s); assumption. }
  split.
  - intros y Hy. apply In_nth_error in Hy as [k Hk].
    assert (Hlt : (k < length (f0 :: f1 :: fr))%nat) by (rewrite <- L; apply nth_error_Some; congruence).
    destruct (nth_error (f0 :: f1 :: fr) k) as [f|] eqn:Ef; [|apply nth_error_None in Ef; lia].
    destruct (V k f Ef) as [y' [E1 E2]]. rewrite Hk in E1. injection E1 as <-.
    exact (proj2 (value_bounds argsort n dt ps Hn Hdt Hs f y _ _ B E2)).
  - intros k Hk. destruct (V k _ Hk) as [y [E1 E2]]. rewrite E1. f_equal.
    rewrite (value_at_grid argsort n dt) in E2 by assumption. injection E2 as <-.
    destruct (position_spec n s Hn Rs) as [P1 _]. unfold ps. rewrite nth_map_seq by exact P1.
    apply avg_eq; [exact Hne|]. intros p Hpp. destruct (T p Hpp) as [A' [EA HA]]. destruct (HL p Hpp) as [_ [_ P3]].
    rewrite piece_power_position by assumption. rewrite <- EA, (tone_dft_peak A' n s) by assumption. reflexivity.
Qed.
Print Assumptions C71_tone_peaks_at_its_frequency.

(** C72: requesting the complete grid of n frequencies (2 <= n < N), the integral (sum times spacing
    1/(n dt)) of the returned spectrum is at least the mean square of the series, averaged over the
    pieces ... *)
Theorem C72_integral_at_least_mean_square_partial :
  forall argsort data dt n, 0 < dt -> (2 <= n)%nat -> (n < length data)%nat -> sorts argsort (fftfreq n dt) ->
  exists out pieces, numpy_power argsort (full_grid n dt) data dt = Some out /\
  division_of_data exact (1 / (INR n * dt)) (Z.of_nat (length data)) dt = Some pieces /\
  rsum (map (fun p => mean_square_of (slice data p)) pieces) / INR (length pieces) <= rsum out / (INR n * dt).
Proof.
  intros argsort data dt n Hdt Hn HN Hs. assert (H0 : 0 < INR n) by (apply lt_0_INR; lia).
  destruct (full_grid_sum argsort data dt n Hdt Hn HN Hs) as [out [pieces [E [Ep [Hne [HL So]]]]]].
  exists out, pieces. split; [exact E|]. split; [exact Ep|].
  assert (Lp : 0 < INR (length pieces)) by (apply lt_0_INR; destruct pieces; [congruence|cbn; lia]).
  rewrite So.
  assert (Fin : rsum (map (fun p => mean_square_of (slice data p)) pieces) <= rsum (map (fun p => rsum (piece_power dt (slice data p))) pieces) / (INR n * dt)).
  { clear - HL Hdt H0 Hn. assert (0 < INR n * dt) by (apply Rmult_lt_0_compat; assumption). induction pieces as [|p pieces IH].
    - cbn. unfold Rdiv. rewrite Rmult_0_l. lra.
    - cbn [map]. unfold rsum at 1 2. cbn [fold_right]. fold (rsum (map (fun p => mean_square_of (slice data p)) pieces)).
      fold (rsum (map (fun p => rsum (piece_power dt (slice data p))) pieces)).
      specialize (IH ltac:(intros; apply HL; right; assumption)). destruct (HL p (or_introl eq_refl)) as [_ [_ P3]].
      assert (T := total_power (slice data p) dt ltac:(lia) Hdt). rewrite P3 in T. unfold Rdiv in *. rewrite Rmult_plus_distr_r. lra. }
  apply (Rmult_le_compat_r (/ INR (length pieces))) in Fin; [|left; apply Rinv_0_lt_compat; exact Lp].
  unfold Rdiv in *. lra.
Qed.
Print Assumptions C72_integral_at_least_mean_square_partial.
(** ... but the equality a user expects (integral of the spectrum = mean square velocity) is false: for
    the series a, -a, a, -a, whatever a <> 0, the mean square is a^2 in every piece and the integral
    is 11/9 a^2. *)
Theorem C72_integral_equals_mean_square_refuted :
  forall argsort a, sorts argsort (fftfreq 3 1) ->
  let data := [RtoC a; RtoC (- a); RtoC a; RtoC (- a)] in
  exists out pieces, numpy_power argsort (full_grid 3 1) data 1 = Some out /\
  division_of_data exact (1 / (INR 3 * 1)) 4 1 = Some pieces /\
  (forall p, In p pieces -> mean_square_of (slice data p) = a ^ 2) /\
  rsum out / (INR 3 * 1) = 11 / 9 * a ^ 2.
Proof.
  intros argsort a Hs data.
  destruct (full_grid_sum argsort data 1 3 ltac:(lra) ltac:(lia) ltac:(cbn; lia) Hs) as [out [pieces [E [Ep [Hne [HL So]]]]]].
  exists out, pieces. split; [exact E|]. split; [exact Ep|].
  assert (Sl : forall p, In p pieces -> slice data p = [RtoC a; RtoC (- a); RtoC a] \/ slice data p = map (Cmult (RtoC (-1))) [RtoC a; RtoC (- a); RtoC a]).
  { intros p Hp. destruct (HL p Hp) as [P1 [P2 P3]]. unfold slice in *. change (length data) with 4%nat in P2.
    rewrite firstn_length, skipn_length in P3. change (length data) with 4%nat in P3.
    assert (Hc : Z.to_nat (fst p) = 0%nat \/ Z.to_nat (fst p) = 1%nat) by lia.
    destruct Hc as [Hc|Hc]; rewrite Hc in *.
    - left. replace (Z.to_nat (snd p) - 0)%nat with 3%nat by lia. reflexivity.
    - right. replace (Z.to_nat (snd p) - 1)%nat with 3%nat by lia. cbn. repeat f_equal; apply Ceq; cbn; ring. }
  assert (Ms : forall b : R, mean_square_of [RtoC b; RtoC (- b); RtoC b] = b ^ 2).
  { intros b. unfold mean_square_of. cbn [map length rsum fold_right]. rewrite !Cmod_R, !pow2_abs. simpl INR. field. }
  split.
  - intros p Hp. destruct (Sl p Hp) as [-> | ->]; [apply Ms|].
    replace (map (Cmult (RtoC (-1))) [RtoC a; RtoC (- a); RtoC a]) with [RtoC (- a); RtoC (- - a); RtoC (- a)] by (cbn; repeat f_equal; apply Ceq; cbn; ring).
    rewrite Ms. ring.
  - assert (Sp : forall p, In p pieces -> rsum (piece_power 1 (slice data p)) = 11 / 3 * a ^ 2).
    { intros p Hp. destruct (Sl p Hp) as [-> | ->]; [apply alternating_sum|]. rewrite piece_power_scale, Cmod_R.
      replace (Rabs (-1) ^ 2) with 1 by (rewrite pow2_abs; ring). rewrite <- alternating_sum. f_equal.
      rewrite (map_ext _ (fun x => x)) by (intros; ring). apply map_id. }
    rewrite So. assert (Lp : 0 < INR (length pieces)) by (apply lt_0_INR; destruct pieces; [congruence|cbn; lia]).
    pose proof (rsum_bounds (fun p => rsum (piece_power 1 (slice data p))) pieces (11 / 3 * a ^ 2) (11 / 3 * a ^ 2)
      ltac:(intros p Hp; cbv beta; rewrite (Sp p Hp); lra)) as B.
    replace (rsum (map (fun p => rsum (piece_power 1 (slice data p))) pieces)) with (INR (length pieces) * (11 / 3 * a ^ 2)) by lra.
    simpl (INR 3). field. lra.
Qed.
Print Assumptions C72_integral_equals_mean_square_refuted.

(** an argsort satisfying the contract exists for every grid: the rotation by n - n/2 positions *)
Definition rotation (l : list R) : list nat := let n := length l in map (fun j => position n (Z.of_nat j - Z.of_nat n / 2)) (seq 0 n).
Example C70_nonvacuous : (forall n dt, (1 <= n)%nat -> 0 < dt -> sorts rotation (fftfreq n dt)) /\
  (1 <= around (1 / (1 * (1 / 5 - 0))))%Z /\ samples 0 (1 / 5) 1 (tone (RtoC 2) (1 / 5) 1 20) = 5%nat.
Proof.
  split.
  - intros n dt Hn Hdt. assert (H0 : 0 < INR n) by (apply lt_0_INR; lia). unfold sorts, rotation. rewrite fftfreq_length.
    pose proof (half_facts n) as HF.
    assert (Rk : forall k, (k < n)%nat -> resolved n (Z.of_nat k - Z.of_nat n / 2)) by (intros; unfold resolved; lia).
    split.
    + apply NoDup_Permutation_bis.
      * apply nodup_map_in; [|apply seq_NoDup]. intros a b Ha Hb Eab. apply in_seq in Ha, Hb.
        destruct (position_spec n _ Hn (Rk a ltac:(lia))) as [_ [Qa _]]. destruct (position_spec n _ Hn (Rk b ltac:(lia))) as [_ [Qb _]].
        rewrite Eab in Qa. lia.
      * rewrite map_length, !seq_length. lia.
      * intros q Hq. apply in_map_iff in Hq as [k [<- Hk]]. apply in_seq in Hk. apply in_seq.
        destruct (position_spec n _ Hn (Rk k ltac:(lia))) as [P1 _]. lia.
    + intros i j Hij. rewrite !nth_map_seq by lia.
      destruct (position_spec n _ Hn (Rk i ltac:(lia))) as [Pi [Qi _]]. destruct (position_spec n _ Hn (Rk j ltac:(lia))) as [Pj [Qj _]].
      rewrite !fftfreq_nth by assumption. rewrite Qi, Qj. unfold grid_frequency. apply Rmult_le_compat_r; [left; apply Rinv_0_lt_compat; nra|]. apply IZR_le. lia.
  - assert (Ha : around (1 / (1 * (1 / 5 - 0))) = 5%Z) by (replace (1 / (1 * (1 / 5 - 0))) with 5 by lra; apply (around_IZR 5)).
    unfold samples. rewrite Ha. split; [lia|]. unfold tone. rewrite map_length, seq_length. reflexivity.
Qed.
(** C71: 0.2 THz sampled every 1 ps is resolved by 5 samples (s = 1); the peak value is 19/5 |A|^2 ... *)
Example C71_nonvacuous : resolved 5 1 /\ resolved 5 (-2) /\ grid_frequency 5 1 1 = 1 / 5 /\ lag_weight 5 = 19 / 5.
Proof.
  split; [unfold resolved; cbn; lia|]. split; [unfold resolved; cbn; lia|]. split; [unfold grid_frequency; simpl INR; field|].
  unfold lag_weight. cbn [seq map rsum fold_right]. cbn -[INR Rdiv Rplus]. simpl INR. field.
Qed.
Example C72_nonvacuous : sorts rotation (fftfreq 3 1).
Proof. apply C70_nonvacuous; [lia|lra]. Qed.
