(** C116: a real oscillation A cos(2 pi f t + phi) peaks at its own frequency in the FFT power spectra. *)
From Verif Require Import SpectraModel SpectraSpec SpectraProofs FftModel FftSpec FftProofs RealToneProofs RealTone2.
From Verif Require FftProps.
From Coq Require Import Lra Lia Permutation.
From Coq Require Import List. Import ListNotations.
Open Scope R_scope.

(** ---------- specification ---------- *)
(** N samples, dt apart, of A cos(2 pi f t + phi) *)
Definition oscillation (A phi f dt : R) (N : nat) : list C :=
  map (fun j => RtoC (A * cos (2 * PI * f * (INR j * dt) + phi))) (seq 0 N).
(** samples in each piece the program analyses: the nearest integer to 1/(dt * resolution), or all N of them if that many are not available *)
Definition piece_samples (N : nat) (f0 f1 dt : R) : nat := Z.to_nat (piece_length (Z.of_nat N) (around (1 / (dt * (f1 - f0))))).

(** ---------- proofs ---------- *)
Lemma oscillation_slice A phi n s dt N p : (1 <= n)%nat -> 0 < dt -> (0 <= fst p)%Z -> length (slice (oscillation A phi (grid_frequency n dt s) dt N) p) = n ->
  exists phi', is_real_tone A phi' n s (slice (oscillation A phi (grid_frequency n dt s) dt N) p).
Proof.
  intros Hn Hdt Hp HL. assert (H0 : 0 < INR n) by (apply lt_0_INR; lia). set (o := Z.to_nat (fst p)).
  exists (2 * PI * IZR s / INR n * INR o + phi). split; [exact HL|].
  intros j Hj. rewrite slice_nth by (assumption || lia). fold o.
  assert (Hlt : (o + j < N)%nat).
  { unfold slice in HL. rewrite firstn_length, skipn_length in HL. unfold oscillation in HL. rewrite map_length, seq_length in HL. unfold o. lia. }
  unfold oscillation. rewrite nth_map_seq by exact Hlt. do 3 f_equal. unfold grid_frequency. rewrite plus_INR. field. lra.
Qed.
Section Spectrum.
Context (argsort : list R -> list nat) (f0 f1 : R) (fr : list R) (A phi : R) (N : nat) (dt : R) (s : Z).
Context (Hdt : 0 < dt) (HN : (1 <= N)%nat) (Hp : (1 <= around (1 / (dt * (f1 - f0))))%Z).
Let n := piece_samples N f0 f1 dt.
Context (Hs : sorts argsort (fftfreq n dt)) (Rs : resolved n s).
Let data := oscillation A phi (grid_frequency n dt s) dt N.
Lemma spectrum_facts : exists out, numpy_power argsort (f0 :: f1 :: fr) data dt = Some out /\ length out = length (f0 :: f1 :: fr) /\
  forall k0 y0, nth_error (f0 :: f1 :: fr) k0 = Some (grid_frequency n dt s) -> nth_error out k0 = Some y0 ->
  (forall y, In y out -> y <= y0) /\
  ((2 * s mod Z.of_nat n <> 0)%Z -> 3 / 20 * INR n * dt * A ^ 2 <= y0) /\
  ((2 * s mod Z.of_nat n <> 0)%Z -> n <> 3%nat -> forall l k y, resolved n l -> l <> s -> l <> (- s)%Z ->
     nth_error (f0 :: f1 :: fr) k = Some (grid_frequency n dt l) -> nth_error out k = Some y -> y <= 97 / 100 * y0).
Proof.
  assert (Ld : length data = N) by (unfold data, oscillation; rewrite map_length, seq_length; reflexivity).
  destruct (numpy_power_structure argsort f0 f1 fr data dt Hdt ltac:(lia) Hp ltac:(rewrite Ld; exact Hs)) as [Hn [pieces [_ [Hne [HL [out [E [L V]]]]]]]].
  rewrite Ld in *. change (Z.to_nat (piece_length (Z.of_nat N) (around (1 / (dt * (f1 - f0)))))) with n in Hn, HL, V.
  exists out. split; [exact E|]. split; [exact L|]. set (ps := map (avg dt data pieces) (seq 0 n)) in *.
  assert (T : forall p, In p pieces -> exists phi', is_real_tone A phi' n s (slice data p)).
  { intros p Hpp. destruct (HL p Hpp) as [P1 [_ P3]]. apply oscillation_slice; assumption. }
  intros k0 y0 K0 Y0. destruct (V k0 _ K0) as [y0' [E1 E2]]. rewrite Y0 in E1. injection E1 as <-.
  rewrite (value_at_grid argsort n dt) in E2 by assumption. injection E2 as E2.
  destruct (position_spec n s Hn Rs) as [P1 _]. unfold ps in E2. rewrite nth_map_seq in E2 by exact P1.
  assert (Lp : 0 < INR (length pieces)) by (apply lt_0_INR; destruct pieces; [congruence|cbn; lia]).
  assert (Dom : forall k q, (forall p, In p pieces -> nth k (piece_power dt (slice data p)) 0 <= q * nth (position n s) (piece_power dt (slice data p)) 0) -> avg dt data pieces k <= q * avg dt data pieces (position n s)).
  { intros k q D. unfold avg, Rdiv. rewrite <- Rmult_assoc. apply Rmult_le_compat_r; [left; apply Rinv_0_lt_compat, Lp|].
    clear - D. induction pieces as [|p pieces IH]; [cbn; lra|]. cbn [map]. unfold rsum. cbn [fold_right]. fold (rsum (map (fun p => nth k (piece_power dt (slice data p)) 0) pieces)).
    fold (rsum (map (fun p => nth (position n s) (piece_power dt (slice data p)) 0) pieces)).
    specialize (IH ltac:(intros; apply D; right; assumption)). specialize (D p (or_introl eq_refl)). lra. }
  split; [|split].
  - assert (B : forall k, (k < n)%nat -> 0 <= nth k ps 0 <= y0).
    { intros k Hk. unfold ps. rewrite nth_map_seq by exact Hk. split.
      - unfold avg. apply Rmult_le_pos; [|left; apply Rinv_0_lt_compat, Lp].
        clear - Hdt. induction pieces as [|q pieces IH]; cbn; [lra|]. apply Rplus_le_le_0_compat; [apply piece_power_nonneg; lra|exact IH].
      - rewrite <- E2, <- (Rmult_1_l (avg dt data pieces (position n s))). apply Dom. intros p Hpp. rewrite Rmult_1_l. destruct (HL p Hpp) as [_ [_ P3]]. destruct (T p Hpp) as [phi' HT].
        rewrite piece_power_nth by lia. rewrite (piece_power_position dt _ n s) by assumption. apply Rmult_le_compat_r; [lra|]. apply (real_tone_peak A phi' n s); assumption. }
    intros y Hy. apply In_nth_error in Hy as [k Hk].
    assert (Hlt : (k < length (f0 :: f1 :: fr))%nat) by (rewrite <- L; apply nth_error_Some; congruence).
    destruct (nth_error (f0 :: f1 :: fr) k) as [f|] eqn:Ef; [|apply nth_error_None in Ef; lia].
    destruct (V k f Ef) as [y' [Y1 Y2]]. rewrite Hk in Y1. injection Y1 as <-.
    exact (proj2 (value_bounds argsort n dt ps Hn Hdt Hs f y _ _ B Y2)).
  - intros S2. rewrite <- E2.
    assert (B : forall p, In p pieces -> 3 / 20 * INR n * dt * A ^ 2 <= nth (position n s) (piece_power dt (slice data p)) 0 <= rsum (map (fun p => nth (position n s) (piece_power dt (slice data p)) 0) pieces)).
    { intros p Hpp. split.
      - destruct (HL p Hpp) as [_ [_ P3]]. destruct (T p Hpp) as [phi' HT]. rewrite (piece_power_position dt _ n s) by assumption.
        pose proof (peak_high A phi' n s _ HT S2 Hn). replace (3 / 20 * INR n * dt * A ^ 2) with (3 / 20 * (INR n * A ^ 2) * dt) by ring. apply Rmult_le_compat_r; lra.
      - clear - Hdt Hpp. induction pieces as [|q pieces IH]; [destruct Hpp|]. cbn [map]. unfold rsum. cbn [fold_right]. fold (rsum (map (fun p => nth (position n s) (piece_power dt (slice data p)) 0) pieces)).
        pose proof (piece_power_nonneg dt (slice data q) (position n s) ltac:(lra)).
        assert (0 <= rsum (map (fun p => nth (position n s) (piece_power dt (slice data p)) 0) pieces)).
        { clear IH Hpp H. induction pieces as [|r pieces IH]; cbn; [lra|]. apply Rplus_le_le_0_compat; [apply piece_power_nonneg; lra|exact IH]. }
        destruct Hpp as [->|Hpp]; [lra|]. specialize (IH Hpp). lra. }
    exact (proj1 (avg_bounds dt data pieces (position n s) _ _ Hne B)).
  - intros S2 N3 l k y Rl L1 L2 K Y. destruct (V k _ K) as [y' [Y1 Y2]]. rewrite Y in Y1. injection Y1 as <-.
    rewrite (value_at_grid argsort n dt) in Y2 by assumption. injection Y2 as <-.
    destruct (position_spec n l Hn Rl) as [Q1 _]. unfold ps. rewrite nth_map_seq by exact Q1. rewrite <- E2. apply Dom. intros p Hpp.
    destruct (HL p Hpp) as [_ [_ P3]]. destruct (T p Hpp) as [phi' HT]. rewrite !piece_power_position by assumption.
    assert (B : Cmod (dft (slice data p) l) <= margin n * Cmod (dft (slice data p) s)).
    { unfold resolved in Rs, Rl. pose proof (half_facts n) as HF. apply (rest A phi' n s); try assumption.
      - intros Z0. apply Z.mod_divide in Z0; [|lia]. destruct Z0 as [z Z0]. assert (z = 0)%Z by nia. lia.
      - intros Z0. apply Z.mod_divide in Z0; [|lia]. destruct Z0 as [z Z0].
        (* l + s = z n with both in range: z = 0, or both are -n/2, excluded by S2 *)
        destruct (Z.eq_dec z 0) as [->|Nz]; [lia|]. apply S2. apply Z.mod_divide; [lia|]. exists (-1)%Z. nia. }
    unfold margin in B. destruct (Nat.eq_dec n 3); [contradiction|]. nra.
Qed.
End Spectrum.

(** ---------- C116 ---------- *)
(** For every amplitude, phase, length, step and resolved frequency f = s/(n dt), the largest value of the spectrum is the one at f.
    Unless f is zero or the Nyquist frequency (where the samples may all vanish) that value is at least 3/20 n dt A^2: the peak grows with the
    square of the amplitude and with the length of the pieces, whatever the phase. *)
Theorem C116_oscillation_peaks_at_its_frequency :
  forall argsort f0 f1 fr A phi N dt s, 0 < dt -> (1 <= N)%nat -> (1 <= around (1 / (dt * (f1 - f0))))%Z ->
  let n := piece_samples N f0 f1 dt in
  sorts argsort (fftfreq n dt) -> resolved n s ->
  exists out, numpy_power argsort (f0 :: f1 :: fr) (oscillation A phi (grid_frequency n dt s) dt N) dt = Some out /\
  forall k, nth_error (f0 :: f1 :: fr) k = Some (grid_frequency n dt s) ->
  exists top, nth_error out k = Some top /\ (forall y, In y out -> y <= top) /\
    (s <> 0%Z -> (2 * Z.abs s <> Z.of_nat n)%Z -> 3 / 20 * INR n * dt * A ^ 2 <= top).
Proof.
  intros argsort f0 f1 fr A phi N dt s Hdt HN Hp n Hs Rs.
  destruct (spectrum_facts argsort f0 f1 fr A phi N dt s Hdt HN Hp Hs Rs) as [out [E [L F]]]. exists out. split; [exact E|].
  intros k K. destruct (nth_error out k) as [top|] eqn:Et.
  - exists top. split; [reflexivity|]. destruct (F k top K Et) as [F1 [F2 _]]. split; [exact F1|]. intros S0 S1. apply F2.
    unfold resolved in Rs. pose proof (half_facts n). fold n. intros Z0. apply Z.mod_divide in Z0; [|lia]. destruct Z0 as [z Z0].
    assert (z = 0 \/ z = 1 \/ z = -1)%Z by nia. lia.
  - exfalso. apply nth_error_None in Et. assert (k < length (f0 :: f1 :: fr))%nat by (apply nth_error_Some; congruence). lia.
Qed.
Print Assumptions C116_oscillation_peaks_at_its_frequency.
(** ... and, with more than three samples, no resolved frequency other than f and -f comes close: at most 97/100 of the value at f. *)
Theorem C116_no_other_peak :
  forall argsort f0 f1 fr A phi N dt s l k k' top y out, 0 < dt -> (1 <= N)%nat -> (1 <= around (1 / (dt * (f1 - f0))))%Z ->
  let n := piece_samples N f0 f1 dt in
  sorts argsort (fftfreq n dt) -> resolved n s -> s <> 0%Z -> (2 * Z.abs s <> Z.of_nat n)%Z -> (4 <= n)%nat -> resolved n l -> Z.abs l <> Z.abs s ->
  numpy_power argsort (f0 :: f1 :: fr) (oscillation A phi (grid_frequency n dt s) dt N) dt = Some out ->
  nth_error (f0 :: f1 :: fr) k = Some (grid_frequency n dt s) -> nth_error out k = Some top ->
  nth_error (f0 :: f1 :: fr) k' = Some (grid_frequency n dt l) -> nth_error out k' = Some y -> y <= 97 / 100 * top.
Proof.
  intros argsort f0 f1 fr A phi N dt s l k k' top y out Hdt HN Hp n Hs Rs S0 S1 N4 Rl Nl E K T K' Y.
  destruct (spectrum_facts argsort f0 f1 fr A phi N dt s Hdt HN Hp Hs Rs) as [out' [E' [_ F]]]. fold n in E', F. rewrite E in E'. injection E' as <-.
  destruct (F k top K T) as [_ [_ F3]]. apply (F3 ltac:(unfold resolved in Rs; pose proof (half_facts n); intros Z0; apply Z.mod_divide in Z0; [|lia]; destruct Z0 as [z Z0]; assert (z = 0 \/ z = 1 \/ z = -1)%Z by nia; lia) ltac:(lia) l k' y Rl ltac:(lia) ltac:(lia) K' Y).
Qed.
Print Assumptions C116_no_other_peak.
(** For any of the four FFT algorithms and whatever the other columns: in the column of the oscillation, the row at f holds the largest entry. *)
Theorem C116_column :
  forall algorithm argsort f0 f1 fr dt columns c A phi N s rows, (2 <= algorithm <= 5)%nat -> 0 < dt -> (1 <= N)%nat -> (1 <= around (1 / (dt * (f1 - f0))))%Z ->
  let n := piece_samples N f0 f1 dt in
  sorts argsort (fftfreq n dt) -> resolved n s ->
  get_fft_spectra algorithm argsort (f0 :: f1 :: fr) dt columns = Some rows -> nth_error columns c = Some (oscillation A phi (grid_frequency n dt s) dt N) ->
  forall k k' row row' y y', nth_error (f0 :: f1 :: fr) k = Some (grid_frequency n dt s) ->
  nth_error rows k = Some row -> nth_error row c = Some y -> nth_error rows k' = Some row' -> nth_error row' c = Some y' -> y' <= y.
Proof.
  intros alg argsort f0 f1 fr dt columns c A phi N s rows Ha Hdt HN Hp n Hs Rs E Hc k k' row row' y y' K R Y R' Y'.
  destruct (FftProps.C70_columns_and_backends alg argsort (f0 :: f1 :: fr) dt columns rows Ha ltac:(lra) E) as [Lr H]. destruct (H c _ Hc) as [sp [Es G]].
  destruct (spectrum_facts argsort f0 f1 fr A phi N dt s Hdt HN Hp Hs Rs) as [out [E' [L F]]]. fold n in E'. rewrite Es in E'. injection E' as <-.
  assert (Hk : (k < length (f0 :: f1 :: fr))%nat) by (apply nth_error_Some; congruence).
  assert (Hk' : (k' < length (f0 :: f1 :: fr))%nat) by (rewrite <- Lr; apply nth_error_Some; congruence).
  destruct (G k Hk) as [r1 [G1 [_ G2]]]. rewrite R in G1. injection G1 as <-. rewrite Y in G2. injection G2 as ->.
  destruct (G k' Hk') as [r2 [G3 [_ G4]]]. rewrite R' in G3. injection G3 as <-. rewrite Y' in G4. injection G4 as ->.
  apply Rmult_le_compat_r; [lra|]. apply (F k (nth k sp 0) K); [apply nth_error_nth'; lia|]. apply nth_In. lia.
Qed.
Print Assumptions C116_column.
(** a concrete case: 20 samples one time unit apart of 2 cos(2 pi t/5 + 1), requested every 1/5: pieces of 5 samples, f = 1/5 resolved, not zero nor Nyquist *)
Example C116_nonvacuous : (1 <= around (1 / (1 * (1 / 5 - 0))))%Z /\ piece_samples 20 0 (1 / 5) 1 = 5%nat /\ sorts FftProps.rotation (fftfreq 5 1) /\
  resolved 5 1 /\ resolved 5 2 /\ grid_frequency 5 1 1 = 1 / 5 /\ (2 * Z.abs 1 <> Z.of_nat 5)%Z /\ nth 0 (oscillation 2 0 (1 / 5) 1 20) (RtoC 0) = RtoC 2.
Proof.
  assert (Ea : around (1 / (1 * (1 / 5 - 0))) = 5%Z) by (replace (1 / (1 * (1 / 5 - 0))) with (IZR 5) by field; apply around_IZR).
  rewrite Ea. split; [lia|]. split; [unfold piece_samples; rewrite Ea; reflexivity|]. split; [apply FftProps.C70_nonvacuous; [lia|lra]|].
  split; [unfold resolved; cbn; lia|]. split; [unfold resolved; cbn; lia|]. split; [unfold grid_frequency; simpl INR; field|]. split; [cbn; lia|].
  unfold oscillation. cbn [seq map nth INR]. replace (2 * PI * (1 / 5) * (0 * 1) + 0) with 0 by ring. rewrite cos_0. f_equal. ring.
Qed.
(** with three samples the rest can be as high as the peak: -a, 0, a has a flat spectrum, so "more than three" above is needed *)
Example C116_three_samples_tie : forall a l, Cmod (dft [RtoC (- a); RtoC 0; RtoC a] l) = 2 / 3 * a ^ 2.
Proof.
  intros a l. set (x := [RtoC (- a); RtoC 0; RtoC a]).
  assert (A0 : acorr x 0 = RtoC 0) by (unfold acorr, csumn, x; cbn -[INR]; simpl INR; unfold Cdiv; rewrite <- RtoC_inv by lra; unfold cget; cbn; change (Pos.to_nat 1) with 1%nat; change (Pos.to_nat 2) with 2%nat; try change (Pos.to_nat 3) with 3%nat; apply Ceq; cbn; field).
  assert (A1 : acorr x 1 = RtoC (2 / 3 * a ^ 2)) by (unfold acorr, csumn, x; cbn -[INR]; simpl INR; unfold Cdiv; rewrite <- RtoC_inv by lra; unfold cget; cbn; change (Pos.to_nat 1) with 1%nat; change (Pos.to_nat 2) with 2%nat; try change (Pos.to_nat 3) with 3%nat; apply Ceq; cbn; field).
  assert (A2 : acorr x 2 = RtoC 0) by (unfold acorr, csumn, x; cbn -[INR]; simpl INR; unfold Cdiv; rewrite <- RtoC_inv by lra; unfold cget; cbn; change (Pos.to_nat 1) with 1%nat; change (Pos.to_nat 2) with 2%nat; try change (Pos.to_nat 3) with 3%nat; apply Ceq; cbn; field).
  unfold dft. change (length x) with 3%nat. rewrite !csumn_S, csumn_0, A0, A1, A2.
  replace (Cplus _ _) with (Cmult (RtoC (2 / 3 * a ^ 2)) (cis (- (2 * PI * IZR l * INR 1 / INR 3)))).
  - rewrite Cmod_mult, cis_mod, Cmod_R, Rabs_pos_eq; [ring|]. pose proof (pow2_ge_0 a). lra.
  - generalize (cis (- (2 * PI * IZR l * INR 1 / INR 3))), (cis (- (2 * PI * IZR l * INR 2 / INR 3))), (cis (- (2 * PI * IZR l * INR 0 / INR 3))). intros u v w. cring.
Qed.
