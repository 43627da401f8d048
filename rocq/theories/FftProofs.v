From Verif Require Import SpectraModel SpectraSpec SpectraProofs FftModel FftSpec.
From Coq Require Import Lra Lia Permutation.
From Coq Require Import List. Import ListNotations.
Open Scope R_scope.

(** ---------- complex sums ---------- *)
Lemma Ceq (a b : C) : fst a = fst b -> snd a = snd b -> a = b.
Proof. destruct a, b; cbn; intros -> ->; reflexivity. Qed.
Ltac cring := repeat match goal with z : C |- _ => destruct z end; apply Ceq; cbn; ring.
Lemma csumn_S n f : csumn (S n) f = Cplus (csumn n f) (f n).
Proof.
  unfold csumn. rewrite seq_S, map_app. cbn [map]. induction (map f (seq 0 n)) as [|a l IH].
  - cbn. cring.
  - cbn [csum fold_right app] in *. fold (csum (l ++ [f (0 + n)%nat])) in *. fold (csum l). rewrite IH. cbn [plus].
    generalize (csum l), (f n). intros u w. cring.
Qed.
Lemma csumn_0 f : csumn 0 f = RtoC 0.
Proof. reflexivity. Qed.
Lemma csumn_ext n f g : (forall k, (k < n)%nat -> f k = g k) -> csumn n f = csumn n g.
Proof. intros H. unfold csumn. f_equal. apply map_ext_in. intros k Hk. apply in_seq in Hk. apply H. lia. Qed.
Lemma csumn_scal n c f : csumn n (fun k => Cmult c (f k)) = Cmult c (csumn n f).
Proof.
  induction n as [|n IH]; [rewrite !csumn_0; cring|]. rewrite !csumn_S, IH. generalize (csumn n f), (f n). intros u w. cring.
Qed.
Lemma csumn_scal_r n c f : csumn n (fun k => Cmult (f k) c) = Cmult (csumn n f) c.
Proof. rewrite (csumn_ext _ _ (fun k => Cmult c (f k))) by (intros; apply Cmult_comm). rewrite csumn_scal. apply Cmult_comm. Qed.
Lemma csumn_plus n f g : csumn n (fun k => Cplus (f k) (g k)) = Cplus (csumn n f) (csumn n g).
Proof.
  induction n as [|n IH]; [rewrite !csumn_0; cring|]. rewrite !csumn_S, IH. generalize (csumn n f), (f n), (csumn n g), (g n). intros a b c d. cring.
Qed.
Lemma csumn_zero n : csumn n (fun _ => RtoC 0) = RtoC 0.
Proof. induction n as [|n IH]; [reflexivity|]. rewrite csumn_S, IH. cring. Qed.
Lemma csumn_swap n m f : csumn n (fun i => csumn m (fun j => f i j)) = csumn m (fun j => csumn n (fun i => f i j)).
Proof.
  induction n as [|n IH].
  - rewrite csumn_0. rewrite (csumn_ext m _ (fun _ => RtoC 0)) by reflexivity. symmetry. apply csumn_zero.
  - rewrite csumn_S, IH. rewrite <- csumn_plus. apply csumn_ext. intros j _. rewrite csumn_S. reflexivity.
Qed.
Lemma csumn_const n c : csumn n (fun _ => c) = Cmult (RtoC (INR n)) c.
Proof.
  induction n as [|n IH]; [rewrite csumn_0; cbn [INR]; cring|]. rewrite csumn_S, IH, S_INR. cring.
Qed.
Lemma csumn_conj n f : Cconj (csumn n f) = csumn n (fun k => Cconj (f k)).
Proof.
  induction n as [|n IH]; [rewrite !csumn_0; cring|]. rewrite !csumn_S, <- IH. generalize (csumn n f), (f n). intros u w. cring.
Qed.
Lemma csumn_single n f k0 : (k0 < n)%nat -> (forall k, (k < n)%nat -> k <> k0 -> f k = RtoC 0) -> csumn n f = f k0.
Proof.
  induction n as [|n IH]; intros Hk H; [lia|]. rewrite csumn_S. destruct (Nat.eq_dec k0 n) as [->|Hne].
  - rewrite (csumn_ext n f (fun _ => RtoC 0)) by (intros; apply H; lia). rewrite csumn_zero. generalize (f n). intros w. cring.
  - rewrite IH by (lia || (intros; apply H; lia)). rewrite (H n) by lia. generalize (f k0). intros w. cring.
Qed.
Definition rsumn (n : nat) (f : nat -> R) : R := rsum (map f (seq 0 n)).
Lemma rsumn_S n f : rsumn (S n) f = rsumn n f + f n.
Proof.
  unfold rsumn. rewrite seq_S, map_app. cbn [map]. induction (map f (seq 0 n)) as [|a l IH]; [cbn; ring|].
  cbn [rsum fold_right app] in *. unfold rsum in *. rewrite IH. cbn [plus]. ring.
Qed.
Lemma rsumn_ext n f g : (forall k, (k < n)%nat -> f k = g k) -> rsumn n f = rsumn n g.
Proof. intros H. unfold rsumn. f_equal. apply map_ext_in. intros k Hk. apply in_seq in Hk. apply H. lia. Qed.
Lemma rsumn_le n f g : (forall k, (k < n)%nat -> f k <= g k) -> rsumn n f <= rsumn n g.
Proof. induction n as [|n IH]; intros H; [cbn; lra|]. rewrite !rsumn_S. specialize (IH ltac:(intros; apply H; lia)). specialize (H n ltac:(lia)). lra. Qed.
Lemma rsumn_scal n c f : rsumn n (fun k => c * f k) = c * rsumn n f.
Proof. induction n as [|n IH]; [cbn; ring|]. rewrite !rsumn_S, IH. ring. Qed.
Lemma csumn_RtoC n f : csumn n (fun k => RtoC (f k)) = RtoC (rsumn n f).
Proof. induction n as [|n IH]; [reflexivity|]. rewrite csumn_S, IH, rsumn_S. cring. Qed.
Lemma Cmod_csumn n f : Cmod (csumn n f) <= rsumn n (fun k => Cmod (f k)).
Proof.
  induction n as [|n IH]; [rewrite csumn_0, Cmod_0; cbn; lra|]. rewrite csumn_S, rsumn_S. eapply Rle_trans; [apply Cmod_triangle|]. lra.
Qed.

(** ---------- phases ---------- *)
Lemma cis_add a b : cis (a + b) = Cmult (cis a) (cis b).
Proof. unfold cis. apply Ceq; cbn; [rewrite cos_plus; ring|rewrite sin_plus; ring]. Qed.
Lemma cis_0 : cis 0 = RtoC 1.
Proof. unfold cis. rewrite cos_0, sin_0. reflexivity. Qed.
Lemma cis_conj a : Cconj (cis a) = cis (- a).
Proof. unfold cis, Cconj. cbn. rewrite cos_neg, sin_neg. reflexivity. Qed.
Lemma cis_mod a : Cmod (cis a) = 1.
Proof.
  unfold Cmod, cis. cbn [fst snd]. pose proof (sin2_cos2 a) as H. unfold Rsqr in H.
  replace (cos a ^ 2 + sin a ^ 2) with 1 by (rewrite <- H; ring). apply sqrt_1.
Qed.
Lemma cis_period a z : cis (a + 2 * PI * IZR z) = cis a.
Proof.
  rewrite cis_add. replace (cis (2 * PI * IZR z)) with (RtoC 1); [generalize (cis a); intros c; cring|]. unfold cis.
  assert (N : forall n : nat, cos (2 * PI * INR n) = 1 /\ sin (2 * PI * INR n) = 0).
  { intros n. replace (2 * PI * INR n) with (0 + 2 * INR n * PI) by ring. rewrite cos_period, sin_period, cos_0, sin_0. split; reflexivity. }
  destruct (Z.le_ge_cases 0 z) as [H|H].
  - destruct (N (Z.to_nat z)) as [A B]. rewrite INR_IZR_INZ, Z2Nat.id in A, B by lia. rewrite A, B. reflexivity.
  - destruct (N (Z.to_nat (- z))) as [A B]. rewrite INR_IZR_INZ, Z2Nat.id, opp_IZR in A, B by lia.
    replace (2 * PI * - IZR z) with (- (2 * PI * IZR z)) in A, B by ring. rewrite cos_neg in A. rewrite sin_neg in B.
    apply Ceq; cbn; lra.
Qed.
Lemma Cmod_conj z : Cmod (Cconj z) = Cmod z.
Proof. unfold Cmod, Cconj. cbn. f_equal. ring. Qed.
Lemma Cmult_conj z : Cmult z (Cconj z) = RtoC ((Cmod z) ^ 2).
Proof.
  destruct z as [a b]. unfold Cmod. cbn [fst snd]. assert (0 <= a ^ 2 + b ^ 2) by nra.
  replace (sqrt (a ^ 2 + b ^ 2) ^ 2) with (a ^ 2 + b ^ 2) by (symmetry; apply pow2_sqrt; assumption).
  apply Ceq; cbn; ring.
Qed.
(** sums of roots of unity *)
Lemma root_sum n (d : Z) : (1 <= n)%nat -> (0 < Z.abs d < Z.of_nat n)%Z ->
  csumn n (fun k => cis (2 * PI * INR k * IZR d / INR n)) = RtoC 0.
Proof.
  intros Hn Hd. assert (Hn0 : 0 < INR n) by (apply lt_0_INR; lia).
  set (w := cis (2 * PI * IZR d / INR n)).
  assert (T : forall m, Cmult (Cminus w (RtoC 1)) (csumn m (fun k => cis (2 * PI * INR k * IZR d / INR n))) = Cminus (cis (2 * PI * INR m * IZR d / INR n)) (RtoC 1)).
  { induction m as [|m IH].
    - rewrite csumn_0. replace (2 * PI * INR 0 * IZR d / INR n) with 0 by (cbn [INR]; field; lra). rewrite cis_0. generalize w. intros v. cring.
    - rewrite csumn_S. replace (2 * PI * INR (S m) * IZR d / INR n) with (2 * PI * INR m * IZR d / INR n + 2 * PI * IZR d / INR n) by (rewrite S_INR; field; lra).
      rewrite (cis_add _ (2 * PI * IZR d / INR n)). fold w. generalize dependent (csumn m (fun k => cis (2 * PI * INR k * IZR d / INR n))).
      generalize (cis (2 * PI * INR m * IZR d / INR n)). intros u s IH. 
      replace (Cmult (Cminus w (RtoC 1)) (Cplus s u)) with (Cplus (Cmult (Cminus w (RtoC 1)) s) (Cmult (Cminus w (RtoC 1)) u)) by (generalize w; intros v; cring).
      rewrite IH. generalize w. intros v. cring. }
  specialize (T n). replace (2 * PI * INR n * IZR d / INR n) with (0 + 2 * PI * IZR d) in T by (field; lra).
  rewrite cis_period, cis_0 in T.
  replace (Cminus (RtoC 1) (RtoC 1)) with (RtoC 0) in T by cring.
  destruct (Ceq_dec (Cminus w (RtoC 1)) (RtoC 0)) as [E|E].
  - exfalso. assert (C1 : cos (2 * PI * IZR d / INR n) = 1).
    { apply (f_equal fst) in E. unfold w, cis in E. cbn in E. lra. }
    set (t := PI * IZR (Z.abs d) / INR n).
    assert (Ht : cos (2 * t) = 1).
    { unfold t. rewrite abs_IZR. unfold Rabs. destruct (Rcase_abs (IZR d)).
      - replace (2 * (PI * - IZR d / INR n)) with (- (2 * PI * IZR d / INR n)) by (field; lra). rewrite cos_neg. exact C1.
      - replace (2 * (PI * IZR d / INR n)) with (2 * PI * IZR d / INR n) by (field; lra). exact C1. }
    rewrite cos_2a_sin in Ht.
    assert (P : 0 < t < PI).
    { pose proof PI_RGT_0. assert (0 < IZR (Z.abs d) < INR n) by (rewrite INR_IZR_INZ; split; apply IZR_lt; lia).
      unfold t. split.
      - apply Rmult_lt_0_compat; [apply Rmult_lt_0_compat; lra|apply Rinv_0_lt_compat; lra].
      - apply (Rmult_lt_reg_r (INR n)); [lra|]. unfold Rdiv. rewrite Rmult_assoc, Rinv_l by lra. rewrite Rmult_1_r. apply Rmult_lt_compat_l; lra. }
    assert (S := sin_gt_0 t (proj1 P) (proj2 P)). nra.
  - destruct (Ceq_dec (csumn n (fun k => cis (2 * PI * INR k * IZR d / INR n))) (RtoC 0)) as [Z|Z]; [exact Z|].
    exfalso. exact (Cmult_neq_0 _ _ E Z T).
Qed.

(** ---------- one piece ---------- *)
Lemma correlate_same_length a v : length (correlate_same a v) = length a.
Proof. unfold correlate_same. rewrite map_length, seq_length. reflexivity. Qed.
Lemma fft_length x : length (fft x) = length x.
Proof. unfold fft. rewrite map_length, seq_length. reflexivity. Qed.
Lemma piece_power_length dt x : length (piece_power dt x) = length x.
Proof. unfold piece_power. rewrite map_length, fft_length, map_length, correlate_same_length. reflexivity. Qed.
Lemma nth_map_seq {A} (f : nat -> A) n k d : (k < n)%nat -> nth k (map f (seq 0 n)) d = f k.
Proof.
  intros H. rewrite (nth_indep _ d (f 0%nat)) by (rewrite map_length, seq_length; exact H).
  rewrite map_nth, seq_nth by exact H. reflexivity.
Qed.
(** autocorrelation at lag index m, normalised *)
Definition acorr (x : list C) (m : nat) : C :=
  Cdiv (csumn (length x) (fun j => Cmult (cget x (Z.of_nat j + (Z.of_nat m - Z.of_nat (length x / 2)))) (Cconj (cget x (Z.of_nat j))))) (RtoC (INR (length x))).
(** discrete Fourier sum at the integer frequency s *)
Definition dft (x : list C) (s : Z) : C :=
  csumn (length x) (fun m => Cmult (acorr x m) (cis (- (2 * PI * IZR s * INR m / INR (length x))))).
Lemma piece_power_nth dt x k : (k < length x)%nat -> nth k (piece_power dt x) 0 = Cmod (dft x (Z.of_nat k)) * dt.
Proof.
  intros H. unfold piece_power. set (c := map _ (correlate_same x x)).
  assert (Lc : length c = length x) by (unfold c; rewrite map_length, correlate_same_length; reflexivity).
  rewrite (nth_indep _ 0 (Cmod (RtoC 0) * dt)) by (rewrite map_length, fft_length, Lc; exact H).
  rewrite (map_nth (fun z => Cmod z * dt)). f_equal. f_equal. unfold fft. rewrite Lc. rewrite nth_map_seq by exact H.
  unfold dft. apply csumn_ext. intros m Hm. rewrite <- INR_IZR_INZ. f_equal.
  unfold c. rewrite (nth_indep _ (RtoC 0) (Cdiv (RtoC 0) (RtoC (INR (length x))))) by (rewrite map_length, correlate_same_length; exact Hm).
  rewrite (map_nth (fun z => Cdiv z (RtoC (INR (length x))))). unfold correlate_same. rewrite nth_map_seq by exact Hm. reflexivity.
Qed.
Lemma dft_period x s z : (1 <= length x)%nat -> dft x (s + z * Z.of_nat (length x)) = dft x s.
Proof.
  intros H. unfold dft. apply csumn_ext. intros m Hm. f_equal.
  assert (H0 : 0 < INR (length x)) by (apply lt_0_INR; lia).
  rewrite <- (cis_period (- (2 * PI * IZR (s + z * Z.of_nat (length x)) * INR m / INR (length x))) (z * Z.of_nat m)).
  f_equal. rewrite plus_IZR, !mult_IZR, <- !INR_IZR_INZ. field. lra.
Qed.
Lemma piece_power_nonneg dt x k : 0 <= dt -> 0 <= nth k (piece_power dt x) 0.
Proof.
  intros H. destruct (Nat.lt_ge_cases k (length x)) as [L|L].
  - rewrite piece_power_nth by exact L. apply Rmult_le_pos; [apply Cmod_ge_0|exact H].
  - rewrite nth_overflow by (rewrite piece_power_length; exact L). lra.
Qed.
Lemma cget_scale c x i : cget (map (Cmult c) x) i = Cmult c (cget x i).
Proof.
  unfold cget. destruct (0 <=? i)%Z; [|cring]. destruct (Nat.lt_ge_cases (Z.to_nat i) (length x)) as [L|L].
  - rewrite (nth_indep _ (RtoC 0) (Cmult c (RtoC 0))) by (rewrite map_length; exact L). apply map_nth.
  - rewrite !nth_overflow by (rewrite ?map_length; exact L). cring.
Qed.
Lemma acorr_scale c x m : acorr (map (Cmult c) x) m = Cmult (RtoC ((Cmod c) ^ 2)) (acorr x m).
Proof.
  unfold acorr. rewrite map_length. unfold Cdiv. rewrite Cmult_assoc. f_equal.
  rewrite <- csumn_scal. apply csumn_ext. intros j _. rewrite !cget_scale, <- Cmult_conj.
  generalize (cget x (Z.of_nat j + (Z.of_nat m - Z.of_nat (length x / 2)))), (cget x (Z.of_nat j)). intros u w. cring.
Qed.
Lemma dft_scale c x s : dft (map (Cmult c) x) s = Cmult (RtoC ((Cmod c) ^ 2)) (dft x s).
Proof.
  unfold dft. rewrite map_length, <- csumn_scal. apply csumn_ext. intros m _. rewrite acorr_scale. rewrite Cmult_assoc. reflexivity.
Qed.
Lemma Cmod_pos_scale a z : 0 <= a -> Cmod (Cmult (RtoC a) z) = a * Cmod z.
Proof. intros H. rewrite Cmod_mult, Cmod_R, Rabs_pos_eq by exact H. reflexivity. Qed.
Lemma list_ext (l l' : list R) : length l = length l' -> (forall k, (k < length l)%nat -> nth k l 0 = nth k l' 0) -> l = l'.
Proof. intros H1 H2. apply (nth_ext l l' 0 0 H1 H2). Qed.
Lemma piece_power_scale c dt x : piece_power dt (map (Cmult c) x) = map (Rmult ((Cmod c) ^ 2)) (piece_power dt x).
Proof.
  apply list_ext.
  - rewrite map_length, !piece_power_length, map_length. reflexivity.
  - intros k Hk. rewrite piece_power_length, map_length in Hk.
    rewrite (nth_indep (map (Rmult _) _) 0 ((Cmod c) ^ 2 * 0)) by (rewrite map_length, piece_power_length; exact Hk).
    rewrite map_nth. rewrite !piece_power_nth by (rewrite ?map_length; exact Hk). rewrite dft_scale, Cmod_pos_scale by (apply pow2_ge_0). ring.
Qed.

(** ---------- total power ---------- *)
Lemma cget_nat x j : cget x (Z.of_nat j) = nth j x (RtoC 0).
Proof. unfold cget. replace (0 <=? Z.of_nat j)%Z with true by (symmetry; apply Z.leb_le; lia). rewrite Nat2Z.id. reflexivity. Qed.
Lemma rsum_nth (l : list R) : rsum l = rsumn (length l) (fun k => nth k l 0).
Proof.
  induction l as [|a l IH] using rev_ind; [reflexivity|]. rewrite app_length, Nat.add_1_r, rsumn_S.
  rewrite app_nth2, Nat.sub_diag by lia. cbn [nth]. rewrite (rsumn_ext _ _ (fun k => nth k l 0)) by (intros k Hk; apply app_nth1; exact Hk).
  rewrite <- IH. unfold rsum. rewrite fold_right_app. cbn. clear IH. induction l as [|b l IH]; cbn; [lra|]. rewrite IH. ring.
Qed.
Lemma acorr_zero_lag x : (1 <= length x)%nat -> acorr x (length x / 2) = RtoC (mean_square_of x).
Proof.
  intros H. assert (H0 : 0 < INR (length x)) by (apply lt_0_INR; lia). unfold acorr, mean_square_of.
  rewrite (csumn_ext _ _ (fun j => RtoC (Cmod (nth j x (RtoC 0)) ^ 2))).
  - rewrite csumn_RtoC. rewrite RtoC_div by lra. f_equal. f_equal. rewrite rsum_nth, map_length. apply rsumn_ext.
    intros k Hk. rewrite (nth_indep (map _ _) 0 (Cmod (RtoC 0) ^ 2)) by (rewrite map_length; exact Hk). rewrite (map_nth (fun z => Cmod z ^ 2)). reflexivity.
  - intros j Hj. replace (Z.of_nat j + (Z.of_nat (length x / 2) - Z.of_nat (length x / 2)))%Z with (Z.of_nat j) by lia.
    rewrite cget_nat. apply Cmult_conj.
Qed.
(** inverse transform at the zero lag *)
Lemma inverse_dft x : (1 <= length x)%nat ->
  csumn (length x) (fun k => Cmult (dft x (Z.of_nat k)) (cis (2 * PI * INR k * INR (length x / 2) / INR (length x)))) =
  Cmult (RtoC (INR (length x))) (acorr x (length x / 2)).
Proof.
  intros H. set (n := length x) in *. assert (H0 : 0 < INR n) by (apply lt_0_INR; lia).
  assert (Hh : (n / 2 < n)%nat) by (apply Nat.div_lt; lia).
  rewrite (csumn_ext n _ (fun k => csumn n (fun m => Cmult (acorr x m) (cis (2 * PI * INR k * IZR (Z.of_nat (n / 2) - Z.of_nat m) / INR n))))).
  - rewrite csumn_swap. rewrite (csumn_single n _ (n / 2)%nat Hh).
    + rewrite csumn_scal, Z.sub_diag. rewrite (csumn_ext n _ (fun _ => RtoC 1)).
      * rewrite csumn_const. generalize (acorr x (n / 2)). intros c. cring.
      * intros k _. replace (2 * PI * INR k * 0 / INR n) with 0 by (field; lra). apply cis_0.
    + intros m Hm Hne. rewrite csumn_scal, root_sum by lia. generalize (acorr x m). intros c. cring.
  - intros k Hk. unfold dft. fold n. rewrite <- csumn_scal_r. apply csumn_ext. intros m Hm.
    rewrite <- Cmult_assoc, <- cis_add. f_equal. f_equal. rewrite minus_IZR, <- !INR_IZR_INZ. field. lra.
Qed.
Lemma total_power x dt : (1 <= length x)%nat -> 0 < dt ->
  mean_square_of x <= rsum (piece_power dt x) / (INR (length x) * dt).
Proof.
  intros H Hdt. assert (H0 : 0 < INR (length x)) by (apply lt_0_INR; lia).
  assert (Hms : 0 <= mean_square_of x).
  { unfold mean_square_of. apply Rmult_le_pos; [|left; apply Rinv_0_lt_compat; exact H0].
    clear. induction x as [|z x IH]; cbn [map rsum fold_right]; [lra|]. unfold rsum in IH. pose proof (pow2_ge_0 (Cmod z)). lra. }
  rewrite rsum_nth, piece_power_length.
  rewrite (rsumn_ext _ _ (fun k => dt * Cmod (dft x (Z.of_nat k)))) by (intros k Hk; rewrite piece_power_nth by exact Hk; ring).
  rewrite rsumn_scal. replace (dt * rsumn (length x) (fun k => Cmod (dft x (Z.of_nat k))) / (INR (length x) * dt))
    with (rsumn (length x) (fun k => Cmod (dft x (Z.of_nat k))) / INR (length x)) by (field; lra).
  apply (Rmult_le_reg_r (INR (length x))); [exact H0|]. unfold Rdiv. rewrite Rmult_assoc, Rinv_l, Rmult_1_r by lra.
  assert (M := f_equal Cmod (inverse_dft x H)). rewrite acorr_zero_lag, <- RtoC_mult, Cmod_R, Rabs_pos_eq in M by (exact H || (apply Rmult_le_pos; lra)).
  rewrite Rmult_comm, <- M. eapply Rle_trans; [apply Cmod_csumn|]. right. apply rsumn_ext. intros k _.
  rewrite Cmod_mult, cis_mod. ring.
Qed.

(** ---------- tones ---------- *)
Lemma count_range n a b : (a <= b)%nat -> (b <= n)%nat ->
  rsumn n (fun j => if ((a <=? j) && (j <? b))%nat%bool then 1 else 0) = INR (b - a).
Proof.
  revert b. induction n as [|n IH]; intros b Hab Hb.
  - replace b with 0%nat by lia. cbn. reflexivity.
  - rewrite rsumn_S. destruct (Nat.eq_dec b (S n)) as [->|Hne].
    + destruct (Nat.eq_dec a (S n)) as [->|Ha].
      * rewrite Nat.sub_diag. rewrite (rsumn_ext n _ (fun _ => 0 * 0)).
        -- rewrite rsumn_scal. replace (S n <=? n)%nat with false by (symmetry; apply Nat.leb_gt; lia). cbn. ring.
        -- intros k Hk. replace (S n <=? k)%nat with false by (symmetry; apply Nat.leb_gt; lia). cbn. ring.
      * rewrite (rsumn_ext n _ (fun j => if ((a <=? j) && (j <? n))%nat%bool then 1 else 0)).
        -- rewrite IH by lia. replace (a <=? n)%nat with true by (symmetry; apply Nat.leb_le; lia).
           replace (n <? S n)%nat with true by (symmetry; apply Nat.ltb_lt; lia). cbn [andb].
           replace (S n - a)%nat with (S (n - a)) by lia. rewrite S_INR. reflexivity.
        -- intros k Hk. replace (k <? S n)%nat with true by (symmetry; apply Nat.ltb_lt; lia).
           replace (k <? n)%nat with true by (symmetry; apply Nat.ltb_lt; lia). reflexivity.
    + rewrite IH by lia. replace (n <? b)%nat with false by (symmetry; apply Nat.ltb_ge; lia). rewrite Bool.andb_false_r. ring.
Qed.
Definition is_tone (A : C) (n : nat) (s0 : Z) (x : list C) : Prop :=
  length x = n /\ forall j, (j < n)%nat -> nth j x (RtoC 0) = Cmult A (cis (2 * PI * IZR s0 * INR j / INR n)).
Definition weight (n m : nat) : R := INR (n - Z.abs_nat (Z.of_nat m - Z.of_nat n / 2)) / INR n.
Lemma weight_nonneg n m : (1 <= n)%nat -> 0 <= weight n m.
Proof. intros H. apply Rmult_le_pos; [apply pos_INR|left; apply Rinv_0_lt_compat, lt_0_INR; lia]. Qed.
Lemma tone_acorr A n s0 x m : (1 <= n)%nat -> (m < n)%nat -> is_tone A n s0 x ->
  acorr x m = Cmult (RtoC ((Cmod A) ^ 2 * weight n m)) (cis (2 * PI * IZR s0 * IZR (Z.of_nat m - Z.of_nat n / 2) / INR n)).
Proof.
  intros Hn Hm [HL Hx]. assert (H0 : 0 < INR n) by (apply lt_0_INR; lia). unfold acorr. rewrite HL.
  rewrite Nat2Z.inj_div. change (Z.of_nat 2) with 2%Z. set (l := (Z.of_nat m - Z.of_nat n / 2)%Z).
  assert (Hl : (- Z.of_nat n <= l <= Z.of_nat n)%Z).
  { assert (0 <= Z.of_nat n / 2 <= Z.of_nat n)%Z by (split; [apply Z.div_pos; lia|apply Z.div_le_upper_bound; lia]). lia. }
  set (e := cis (2 * PI * IZR s0 * IZR l / INR n)).
  rewrite (csumn_ext n _ (fun j => Cmult (Cmult (RtoC ((Cmod A) ^ 2)) e)
     (RtoC (if ((Z.to_nat (- l) <=? j) && (j <? n - Z.to_nat l))%nat%bool then 1 else 0)))).
  - rewrite csumn_scal, csumn_RtoC, count_range by lia. unfold weight. fold l.
    replace (n - Z.to_nat l - Z.to_nat (- l))%nat with (n - Z.abs_nat l)%nat by lia.
    unfold Cdiv. rewrite <- RtoC_inv by lra. generalize e, (INR (n - Z.abs_nat l)). intros u w. unfold Rdiv. cring.
  - intros j Hj. rewrite cget_nat. rewrite Hx by exact Hj.
    destruct (Nat.leb_spec (Z.to_nat (- l)) j) as [L1|L1]; [destruct (Nat.ltb_spec j (n - Z.to_nat l)) as [L2|L2]|]; cbn [andb].
    + replace (Z.of_nat j + l)%Z with (Z.of_nat (Z.to_nat (Z.of_nat j + l))) by lia. rewrite cget_nat, Hx by lia.
      rewrite <- Cmult_conj. unfold e.
      replace (2 * PI * IZR s0 * INR (Z.to_nat (Z.of_nat j + l)) / INR n) with (2 * PI * IZR s0 * INR j / INR n + 2 * PI * IZR s0 * IZR l / INR n)
        by (rewrite (INR_IZR_INZ (Z.to_nat _)), Z2Nat.id by lia; rewrite plus_IZR, <- INR_IZR_INZ; field; lra).
      rewrite cis_add. generalize (cis_mod (2 * PI * IZR s0 * INR j / INR n)).
      generalize (cis (2 * PI * IZR s0 * INR j / INR n)), (cis (2 * PI * IZR s0 * IZR l / INR n)). intros u w Hu.
      assert (Q := Cmult_conj u). rewrite Hu in Q. replace (1 ^ 2) with 1 in Q by ring.
      replace (Cmult (Cmult A (Cmult u w)) (Cconj (Cmult A u))) with (Cmult (Cmult (Cmult A (Cconj A)) w) (Cmult u (Cconj u))) by cring.
      rewrite Q. reflexivity.
    + unfold cget. destruct (0 <=? Z.of_nat j + l)%Z; [rewrite nth_overflow by lia|]; generalize (Cmult A (cis (2 * PI * IZR s0 * INR j / INR n))), e; intros u w; cring.
    + unfold cget. replace (0 <=? Z.of_nat j + l)%Z with false by (symmetry; apply Z.leb_gt; lia).
      generalize (Cmult A (cis (2 * PI * IZR s0 * INR j / INR n))), e; intros u w; cring.
Qed.
Lemma lag_weight_eq n : lag_weight n = rsumn n (weight n).
Proof. reflexivity. Qed.
Lemma tone_dft_le A n s0 x s : (1 <= n)%nat -> is_tone A n s0 x -> Cmod (dft x s) <= (Cmod A) ^ 2 * lag_weight n.
Proof.
  intros Hn Hx. unfold dft. rewrite (proj1 Hx). eapply Rle_trans; [apply Cmod_csumn|].
  rewrite lag_weight_eq, <- rsumn_scal. right. apply rsumn_ext. intros m Hm. rewrite (tone_acorr A n s0) by assumption.
  rewrite !Cmod_mult, !cis_mod, Cmod_R, Rabs_pos_eq; [ring|]. apply Rmult_le_pos; [apply pow2_ge_0|apply weight_nonneg; exact Hn].
Qed.
Lemma tone_dft_peak A n s0 x : (1 <= n)%nat -> is_tone A n s0 x -> Cmod (dft x s0) = (Cmod A) ^ 2 * lag_weight n.
Proof.
  intros Hn Hx. assert (H0 : 0 < INR n) by (apply lt_0_INR; lia). unfold dft. rewrite (proj1 Hx).
  rewrite (csumn_ext n _ (fun m => Cmult (cis (- (2 * PI * IZR s0 * IZR (Z.of_nat n / 2) / INR n))) (RtoC ((Cmod A) ^ 2 * weight n m)))).
  - rewrite csumn_scal, csumn_RtoC, Cmod_mult, cis_mod, rsumn_scal, <- lag_weight_eq, Cmod_R, Rabs_pos_eq; [ring|].
    apply Rmult_le_pos; [apply pow2_ge_0|]. rewrite lag_weight_eq. replace 0 with (0 * rsumn n (weight n)) by ring. rewrite <- rsumn_scal.
    apply rsumn_le. intros k _. rewrite Rmult_0_l. apply weight_nonneg. exact Hn.
  - intros m Hm. rewrite (tone_acorr A n s0) by assumption. rewrite <- Cmult_assoc, <- cis_add. rewrite Cmult_comm. f_equal. f_equal.
    rewrite minus_IZR, <- INR_IZR_INZ. field. lra.
Qed.
(** real data: opposite frequencies have the same power *)
Lemma real_symmetric x s : (forall z, In z x -> snd z = 0) -> Cmod (dft x (- s)) = Cmod (dft x s).
Proof.
  intros H. assert (R0 : forall i, snd (cget x i) = 0).
  { intros i. unfold cget. destruct (0 <=? i)%Z; [|reflexivity]. destruct (Nat.lt_ge_cases (Z.to_nat i) (length x)) as [L|L].
    - apply H, nth_In, L.
    - rewrite nth_overflow by exact L. reflexivity. }
  assert (Ra : forall m, Cconj (acorr x m) = acorr x m).
  { intros m. unfold acorr. unfold Cdiv. 
    assert (Q : forall a b, Cconj (Cmult a b) = Cmult (Cconj a) (Cconj b)) by (intros; cring). rewrite Q, csumn_conj. f_equal.
    - apply csumn_ext. intros j _. rewrite Q. 
      assert (P : forall a b : C, snd a = 0 -> snd b = 0 -> Cmult (Cconj a) (Cconj (Cconj b)) = Cmult a (Cconj b)).
      { intros [p q] [u w]. cbn [snd]. intros -> ->. apply Ceq; unfold Cmult, Cconj; cbn [fst snd]; ring. }
      apply P; apply R0.
    - unfold Cinv, Cconj, RtoC. cbn [fst snd]. f_equal. unfold Rdiv. generalize (/ (INR (length x) ^ 2 + 0 ^ 2)). intros u. ring. }
  rewrite <- (Cmod_conj (dft x s)). f_equal. unfold dft. rewrite csumn_conj. apply csumn_ext. intros m _.
  assert (Q : forall a b, Cconj (Cmult a b) = Cmult (Cconj a) (Cconj b)) by (intros; cring). rewrite Q, Ra, cis_conj. f_equal. f_equal.
  rewrite opp_IZR. unfold Rdiv. ring.
Qed.

(** ---------- interpolation ---------- *)
Definition incr (pts : list (R * R)) : Prop := forall i j, (i < j < length pts)%nat -> fst (nth i pts (0, 0)) < fst (nth j pts (0, 0)).
Lemma incr_tl p pts : incr (p :: pts) -> incr pts.
Proof. intros H i j Hij. apply (H (S i) (S j)). cbn. lia. Qed.
Lemma interp1_total pts x : pts <> [] -> exists y, interp1 pts x = Some y.
Proof.
  induction pts as [|[x0 y0] pts IH]; intros H; [congruence|]. destruct pts as [|[x1 y1] pts]; [eexists; reflexivity|].
  change (exists y, (if Rle_dec x x0 then Some y0 else if Rlt_dec x x1 then Some ((y1 - y0) / (x1 - x0) * (x - x0) + y0) else interp1 ((x1, y1) :: pts) x) = Some y).
  destruct (Rle_dec x x0); [eexists; reflexivity|]. destruct (Rlt_dec x x1); [eexists; reflexivity|]. apply IH. discriminate.
Qed.
Lemma interp1_bounds pts x y lo hi : incr pts -> (forall p, In p pts -> lo <= snd p <= hi) -> interp1 pts x = Some y -> lo <= y <= hi.
Proof.
  induction pts as [|[x0 y0] pts IH]; intros S B E; [discriminate|]. destruct pts as [|[x1 y1] pts].
  - injection E as <-. exact (B (x0, y0) (or_introl eq_refl)).
  - change ((if Rle_dec x x0 then Some y0 else if Rlt_dec x x1 then Some ((y1 - y0) / (x1 - x0) * (x - x0) + y0) else interp1 ((x1, y1) :: pts) x) = Some y) in E.
    assert (B0 := B (x0, y0) (or_introl eq_refl)). assert (B1 := B (x1, y1) (or_intror (or_introl eq_refl))). cbn [snd] in B0, B1.
    destruct (Rle_dec x x0) as [L|L]; [injection E as <-; exact B0|]. destruct (Rlt_dec x x1) as [L1|L1].
    + injection E as <-. assert (X : x0 < x1) by lra. set (t := (x - x0) / (x1 - x0)).
      replace ((y1 - y0) / (x1 - x0) * (x - x0) + y0) with (t * y1 + (1 - t) * y0) by (unfold t; field; lra).
      assert (0 <= t <= 1).
      { unfold t. split; [apply Rmult_le_pos; [lra|left; apply Rinv_0_lt_compat; lra]|].
        apply (Rmult_le_reg_r (x1 - x0)); [lra|]. unfold Rdiv. rewrite Rmult_assoc, Rinv_l by lra. lra. }
      nra.
    + apply (IH (incr_tl _ _ S)); [intros p Hp; apply B; right; exact Hp|exact E].
Qed.
Lemma interp1_node pts i : incr pts -> (i < length pts)%nat -> interp1 pts (fst (nth i pts (0, 0))) = Some (snd (nth i pts (0, 0))).
Proof.
  revert i. induction pts as [|[x0 y0] pts IH]; intros i S Hi; [cbn in Hi; lia|]. destruct pts as [|[x1 y1] pts].
  - cbn in Hi. replace i with 0%nat by lia. reflexivity.
  - destruct i as [|i].
    + cbn. destruct (Rle_dec x0 x0) as [_|N]; [reflexivity|exfalso; apply N; lra].
    + cbn [nth]. set (x := fst (nth i ((x1, y1) :: pts) (0, 0))).
      change ((if Rle_dec x x0 then Some y0 else if Rlt_dec x x1 then Some ((y1 - y0) / (x1 - x0) * (x - x0) + y0) else interp1 ((x1, y1) :: pts) x) = Some (snd (nth i ((x1, y1) :: pts) (0, 0)))).
      assert (X : x0 < x) by (apply (S 0%nat (Datatypes.S i)); cbn [length] in *; lia).
      destruct (Rle_dec x x0) as [L|_]; [lra|]. assert (X1 : x1 <= x).
      { destruct i as [|i]; [right; reflexivity|]. left. apply (S 1%nat (Datatypes.S (Datatypes.S i))). cbn [length] in *. lia. }
      destruct (Rlt_dec x x1) as [L|_]; [lra|]. apply IH; [apply (incr_tl _ _ S)|cbn [length] in *; lia].
Qed.
Lemma interp1_scale c pts x : interp1 (map (fun p => (fst p, c * snd p)) pts) x = option_map (Rmult c) (interp1 pts x).
Proof.
  induction pts as [|[x0 y0] pts IH]; [reflexivity|]. destruct pts as [|[x1 y1] pts]; [reflexivity|].
  change ((if Rle_dec x x0 then Some (c * y0) else if Rlt_dec x x1 then Some ((c * y1 - c * y0) / (x1 - x0) * (x - x0) + c * y0) else interp1 (map (fun p => (fst p, c * snd p)) ((x1, y1) :: pts)) x)
    = option_map (Rmult c) (if Rle_dec x x0 then Some y0 else if Rlt_dec x x1 then Some ((y1 - y0) / (x1 - x0) * (x - x0) + y0) else interp1 ((x1, y1) :: pts) x)).
  destruct (Rle_dec x x0); [reflexivity|]. destruct (Rlt_dec x x1); [cbn; f_equal; unfold Rdiv; ring|]. exact IH.
Qed.

(** ---------- frequency grid ---------- *)
Definition signed_index (n k : nat) : Z := if (k <? (n + 1) / 2)%nat then Z.of_nat k else (Z.of_nat k - Z.of_nat n)%Z.
Lemma fftfreq_length n d : length (fftfreq n d) = n.
Proof. unfold fftfreq. rewrite map_length, seq_length. reflexivity. Qed.
Lemma fftfreq_nth n d k : (k < n)%nat -> nth k (fftfreq n d) 0 = grid_frequency n d (signed_index n k).
Proof.
  intros H. unfold fftfreq. rewrite nth_map_seq by exact H. unfold grid_frequency, signed_index.
  rewrite (Rmult_comm d). destruct (k <? (n + 1) / 2)%nat; [rewrite INR_IZR_INZ; reflexivity|]. rewrite minus_IZR, <- !INR_IZR_INZ. reflexivity.
Qed.
Lemma grid_inj n d s s' : (1 <= n)%nat -> 0 < d -> grid_frequency n d s = grid_frequency n d s' -> s = s'.
Proof.
  intros Hn Hd E. assert (0 < INR n) by (apply lt_0_INR; lia). apply eq_IZR. unfold grid_frequency in E.
  apply (Rmult_eq_reg_r (/ (INR n * d))); [exact E|]. apply Rinv_neq_0_compat. nra.
Qed.
Lemma signed_index_inj n k k' : (k < n)%nat -> (k' < n)%nat -> signed_index n k = signed_index n k' -> k = k'.
Proof.
  intros H H' E. unfold signed_index in E. destruct (k <? (n + 1) / 2)%nat, (k' <? (n + 1) / 2)%nat; lia.
Qed.
(** the array position holding the resolved frequency s *)
Definition position (n : nat) (s : Z) : nat := Z.to_nat (if (0 <=? s)%Z then s else s + Z.of_nat n).
Lemma half_facts n : (0 <= Z.of_nat n / 2 /\ 2 * (Z.of_nat n / 2) <= Z.of_nat n < 2 * (Z.of_nat n / 2) + 2 /\
  2 * ((Z.of_nat n - 1) / 2) <= Z.of_nat n - 1 < 2 * ((Z.of_nat n - 1) / 2) + 2 /\
  2 * Z.of_nat ((n + 1) / 2) <= Z.of_nat n + 1 < 2 * Z.of_nat ((n + 1) / 2) + 2)%Z.
Proof.
  rewrite Nat2Z.inj_div, Nat2Z.inj_add. change (Z.of_nat 2) with 2%Z. change (Z.of_nat 1) with 1%Z.
  assert (A := Z.div_mod (Z.of_nat n) 2). assert (A' := Z.mod_pos_bound (Z.of_nat n) 2).
  assert (B := Z.div_mod (Z.of_nat n - 1) 2). assert (B' := Z.mod_pos_bound (Z.of_nat n - 1) 2).
  assert (D := Z.div_mod (Z.of_nat n + 1) 2). assert (D' := Z.mod_pos_bound (Z.of_nat n + 1) 2). lia.
Qed.
Lemma position_spec n s : (1 <= n)%nat -> resolved n s -> (position n s < n)%nat /\ signed_index n (position n s) = s /\
  exists z, Z.of_nat (position n s) = (s + z * Z.of_nat n)%Z.
Proof.
  intros Hn Hs. unfold resolved in Hs. pose proof (half_facts n) as F. unfold position. destruct (Z.leb_spec 0 s) as [L|L].
  - split; [lia|]. split; [|exists 0%Z; lia]. unfold signed_index. destruct (Nat.ltb_spec (Z.to_nat s) ((n + 1) / 2)); lia.
  - split; [lia|]. split; [|exists 1%Z; lia]. unfold signed_index. destruct (Nat.ltb_spec (Z.to_nat (s + Z.of_nat n)) ((n + 1) / 2)); lia.
Qed.
Lemma signed_resolved n k : (k < n)%nat -> resolved n (signed_index n k) /\ position n (signed_index n k) = k.
Proof.
  intros H. pose proof (half_facts n) as F. unfold resolved, signed_index, position. destruct (Nat.ltb_spec k ((n + 1) / 2)) as [L|L].
  - replace (0 <=? Z.of_nat k)%Z with true by (symmetry; apply Z.leb_le; lia). lia.
  - replace (0 <=? Z.of_nat k - Z.of_nat n)%Z with false by (symmetry; apply Z.leb_gt; lia). lia.
Qed.
(** the points handed to np.interp *)
Definition points (freqs ps : list R) (idx : list nat) : list (R * R) := combine (take freqs idx) (take ps idx).
Lemma points_map freqs ps idx : points freqs ps idx = map (fun k => (nth k freqs 0, nth k ps 0)) idx.
Proof. unfold points, take. induction idx as [|k idx IH]; [reflexivity|]. cbn. rewrite IH. reflexivity. Qed.
Section Sorted.
Context (argsort : list R -> list nat) (n : nat) (dt : R) (ps : list R).
Hypothesis Hn : (1 <= n)%nat.
Hypothesis Hdt : 0 < dt.
Hypothesis Hsort : sorts argsort (fftfreq n dt).
Let idx := argsort (fftfreq n dt).
Lemma idx_length : length idx = n.
Proof. unfold idx. rewrite (Permutation_length (proj1 Hsort)), seq_length. apply fftfreq_length. Qed.
Lemma idx_lt i : (i < n)%nat -> (nth i idx 0%nat < n)%nat.
Proof.
  intros H. assert (I : In (nth i idx 0%nat) idx) by (apply nth_In; rewrite idx_length; exact H).
  apply (Permutation_in _ (proj1 Hsort)) in I. apply in_seq in I. rewrite fftfreq_length in I. lia.
Qed.
Lemma idx_nodup : NoDup idx.
Proof. apply (Permutation_NoDup (Permutation_sym (proj1 Hsort))). apply seq_NoDup. Qed.
Lemma idx_onto k : (k < n)%nat -> exists i, (i < n)%nat /\ nth i idx 0%nat = k.
Proof.
  intros H. assert (I : In k (seq 0 (length (fftfreq n dt)))) by (apply in_seq; rewrite fftfreq_length; lia).
  apply (Permutation_in _ (Permutation_sym (proj1 Hsort))) in I. destruct (In_nth _ _ 0%nat I) as [i [Hi E]].
  exists i. fold idx in Hi, E. rewrite idx_length in Hi. split; assumption.
Qed.
Lemma points_nth i : (i < n)%nat -> nth i (points (fftfreq n dt) ps idx) (0, 0) = (nth (nth i idx 0%nat) (fftfreq n dt) 0, nth (nth i idx 0%nat) ps 0).
Proof.
  intros H. rewrite points_map. rewrite (nth_indep _ (0, 0) ((fun k => (nth k (fftfreq n dt) 0, nth k ps 0)) 0%nat)) by (rewrite map_length, idx_length; exact H).
  rewrite (map_nth (fun k => (nth k (fftfreq n dt) 0, nth k ps 0))). reflexivity.
Qed.
Lemma points_length : length (points (fftfreq n dt) ps idx) = n.
Proof. rewrite points_map, map_length. apply idx_length. Qed.
Lemma points_incr : incr (points (fftfreq n dt) ps idx).
Proof.
  intros i j Hij. rewrite points_length in Hij. rewrite !points_nth by lia. cbn [fst].
  assert (L := proj2 Hsort i j ltac:(rewrite fftfreq_length; exact Hij)). fold idx in L.
  destruct L as [L|L]; [exact L|]. exfalso. rewrite !fftfreq_nth in L by (apply idx_lt; lia).
  apply grid_inj in L; [|assumption|assumption]. apply signed_index_inj in L; [|apply idx_lt; lia|apply idx_lt; lia].
  assert (i = j); [|lia]. apply (proj1 (NoDup_nth idx 0%nat) idx_nodup); rewrite ?idx_length; lia || exact L.
Qed.
Lemma value_at_grid s : resolved n s -> interp1 (points (fftfreq n dt) ps idx) (grid_frequency n dt s) = Some (nth (position n s) ps 0).
Proof.
  intros Hs. destruct (position_spec n s Hn Hs) as [P1 [P2 _]]. destruct (idx_onto _ P1) as [i [Hi Ei]].
  assert (E := interp1_node (points (fftfreq n dt) ps idx) i points_incr ltac:(rewrite points_length; exact Hi)).
  rewrite points_nth in E by exact Hi. cbn [fst snd] in E. rewrite Ei, fftfreq_nth, P2 in E by exact P1. exact E.
Qed.
Lemma value_anywhere x : exists y, interp1 (points (fftfreq n dt) ps idx) x = Some y.
Proof. apply interp1_total. intros E. apply (f_equal (@length _)) in E. rewrite points_length in E. cbn in E. lia. Qed.
Lemma value_bounds x y lo hi : (forall k, (k < n)%nat -> lo <= nth k ps 0 <= hi) -> interp1 (points (fftfreq n dt) ps idx) x = Some y -> lo <= y <= hi.
Proof.
  intros B E. apply (interp1_bounds _ _ _ lo hi points_incr) in E; [exact E|]. intros p Hp.
  rewrite points_map in Hp. apply in_map_iff in Hp as [k [<- Hk]]. cbn [snd]. apply B.
  apply (Permutation_in _ (proj1 Hsort)) in Hk. apply in_seq in Hk. rewrite fftfreq_length in Hk. lia.
Qed.
End Sorted.

(** ---------- pieces and average ---------- *)
Lemma slice_length data p : (0 <= fst p <= snd p)%Z -> (snd p <= Z.of_nat (length data))%Z -> length (slice data p) = Z.to_nat (snd p - fst p).
Proof. intros H1 H2. unfold slice. rewrite firstn_length, skipn_length. lia. Qed.
Definition avg (dt : R) (data : list C) (pieces : list (Z * Z)) (k : nat) : R :=
  rsum (map (fun p => nth k (piece_power dt (slice data p)) 0) pieces) / INR (length pieces).
Lemma average0_ok dt data pieces n : pieces <> [] -> (forall p, In p pieces -> length (slice data p) = n) ->
  average0 (map (fun p => piece_power dt (slice data p)) pieces) = Some (map (avg dt data pieces) (seq 0 n)).
Proof.
  intros Hne H. destruct pieces as [|p pieces]; [congruence|]. unfold average0. cbn [map].
  rewrite piece_power_length, (H p (or_introl eq_refl)).
  replace (forallb _ _) with true.
  - f_equal. apply map_ext. intros k. unfold avg. cbn [map]. rewrite map_map. cbn [length]. rewrite map_length. reflexivity.
  - symmetry. apply forallb_forall. intros q Hq. change (piece_power dt (slice data p) :: map (fun p0 => piece_power dt (slice data p0)) pieces)
      with (map (fun p0 => piece_power dt (slice data p0)) (p :: pieces)) in Hq.
    apply in_map_iff in Hq as [p' [<- Hp']]. rewrite piece_power_length, (H p' Hp'). apply Nat.eqb_refl.
Qed.
Lemma omap_total {A B} (f : A -> option B) l : (forall a, In a l -> exists b, f a = Some b) -> exists r, omap_list f l = Some r.
Proof.
  induction l as [|a l IH]; intros H; [eexists; reflexivity|]. destruct (H a (or_introl eq_refl)) as [b Eb].
  destruct IH as [r Er]; [intros; apply H; right; assumption|]. exists (b :: r). cbn. rewrite Eb, Er. reflexivity.
Qed.
Lemma omap_nth {A B} (f : A -> option B) l r : omap_list f l = Some r -> length r = length l /\ forall k a, nth_error l k = Some a -> nth_error r k = f a.
Proof.
  revert r. induction l as [|a l IH]; intros r E; cbn in E.
  - injection E as <-. split; [reflexivity|]. intros k b Hk. destruct k; discriminate.
  - destruct (f a) as [b|] eqn:Ea; [|discriminate]. cbn in E. destruct (omap_list f l) as [r'|]; [|discriminate]. cbn in E. injection E as <-.
    destruct (IH r' eq_refl) as [L N]. split; [cbn; lia|]. intros k x Hk. destruct k as [|k]; [cbn in *; congruence|]. apply N. exact Hk.
Qed.
(** everything known about one call *)
Lemma numpy_power_structure argsort f0 f1 fr data dt :
  let n := Z.to_nat (piece_length (Z.of_nat (length data)) (around (1 / (dt * (f1 - f0))))) in
  0 < dt -> (1 <= length data)%nat -> (1 <= around (1 / (dt * (f1 - f0))))%Z -> sorts argsort (fftfreq n dt) ->
  (1 <= n)%nat /\ exists pieces, division_of_data exact (f1 - f0) (Z.of_nat (length data)) dt = Some pieces /\ pieces <> [] /\
  (forall p, In p pieces -> (0 <= fst p)%Z /\ (snd p <= Z.of_nat (length data))%Z /\ length (slice data p) = n) /\
  exists out, numpy_power argsort (f0 :: f1 :: fr) data dt = Some out /\ length out = length (f0 :: f1 :: fr) /\
  forall k f, nth_error (f0 :: f1 :: fr) k = Some f -> exists y, nth_error out k = Some y /\
    interp1 (points (fftfreq n dt) (map (avg dt data pieces) (seq 0 n)) (argsort (fftfreq n dt))) f = Some y.
Proof.
  intros n Hdt HN Hp Hs.
  assert (Hn : (1 <= n)%nat) by (unfold n, piece_length; destruct (_ <=? _)%Z; lia).
  split; [exact Hn|].
  destruct (division_exact (f1 - f0) dt (Z.of_nat (length data)) ltac:(lia) Hp) as [pieces [E [G Lp]]].
  destruct G as [G1 [G2 _]].
  assert (Hne : pieces <> []) by (intros ->; cbn in G1; lia).
  assert (HL : forall p, In p pieces -> length (slice data p) = n).
  { intros p Hpp. destruct (G2 p Hpp) as [A [B D]]. rewrite slice_length by lia. unfold n. rewrite (Lp p Hpp). reflexivity. }
  exists pieces. split; [exact E|]. split; [exact Hne|]. split.
  { intros p Hpp. destruct (G2 p Hpp) as [A [B D]]. split; [lia|]. split; [lia|]. apply HL, Hpp. }
  unfold numpy_power, fft_power. rewrite E. cbn [obind]. rewrite (average0_ok dt data pieces n Hne HL). cbn [obind].
  assert (Ll : length (slice data (last pieces (0, 0)%Z)) = n).
  { apply HL. destruct (exists_last Hne) as [l' [a ->]]. rewrite last_last. apply in_or_app. right. left. reflexivity. }
  rewrite Ll. unfold interp. fold (points (fftfreq n dt) (map (avg dt data pieces) (seq 0 n)) (argsort (fftfreq n dt))).
  set (pts := points _ _ _).
  destruct (omap_total (interp1 pts) (f0 :: f1 :: fr)) as [out Eo].
  { intros f _. apply (value_anywhere argsort n dt); assumption. }
  exists out. split; [exact Eo|]. destruct (omap_nth _ _ _ Eo) as [L N]. split; [exact L|].
  intros k f Hk. destruct (value_anywhere argsort n dt (map (avg dt data pieces) (seq 0 n)) Hn Hs f) as [y Ey]. exists y.
  rewrite (N k f Hk). split; assumption.
Qed.

(** ---------- properties of a call ---------- *)
Lemma slice_map (f : C -> C) data p : slice (map f data) p = map f (slice data p).
Proof. unfold slice. rewrite skipn_map, firstn_map. reflexivity. Qed.
Lemma rsum_scal {A} c (f : A -> R) l : rsum (map (fun a => c * f a) l) = c * rsum (map f l).
Proof. induction l as [|a l IH]; cbn; [ring|]. unfold rsum in IH. rewrite IH. ring. Qed.
Lemma average0_scale c ps : average0 (map (map (Rmult c)) ps) = option_map (map (Rmult c)) (average0 ps).
Proof.
  destruct ps as [|p ps]; [reflexivity|]. unfold average0. cbn [map].
  replace (forallb _ (map (Rmult c) p :: map (map (Rmult c)) ps)) with (forallb (fun q => (length q =? length p)%nat) (p :: ps)).
  - destruct (forallb _ _); [|reflexivity]. cbn [option_map]. f_equal. rewrite map_map, map_length. apply map_ext. intros k.
    assert (N : forall q, nth k (map (Rmult c) q) 0 = c * nth k q 0).
    { intros q. replace 0 with (c * 0) at 1 by ring. apply map_nth. }
    assert (T : fold_right Rplus 0 (map (fun q => nth k q 0) (map (map (Rmult c)) (p :: ps))) = c * fold_right Rplus 0 (map (fun q => nth k q 0) (p :: ps))).
    { rewrite map_map, (map_ext _ (fun q => c * nth k q 0) N). apply rsum_scal. }
    cbn [map fold_right length] in T |- *. rewrite ?map_map in T |- *. rewrite T, map_length. unfold Rdiv. ring.
  - change (map (Rmult c) p :: map (map (Rmult c)) ps) with (map (map (Rmult c)) (p :: ps)). generalize (p :: ps). intros l.
    rewrite map_length. induction l as [|q l IH]; [reflexivity|]. cbn. rewrite map_length, IH. reflexivity.
Qed.
Lemma interp_scale c xs xp fp : interp xs xp (map (Rmult c) fp) = option_map (map (Rmult c)) (interp xs xp fp).
Proof.
  unfold interp. replace (combine xp (map (Rmult c) fp)) with (map (fun p => (fst p, c * snd p)) (combine xp fp)).
  - induction xs as [|x xs IH]; [reflexivity|]. cbn [omap_list]. rewrite interp1_scale.
    destruct (interp1 (combine xp fp) x); [|reflexivity]. cbn [option_map obind]. rewrite IH. destruct (omap_list (interp1 (combine xp fp)) xs); reflexivity.
  - revert fp. induction xp as [|a xp IH]; intros [|b fp]; try reflexivity. cbn. rewrite IH. reflexivity.
Qed.
Lemma numpy_power_scale argsort fr c data dt :
  numpy_power argsort fr (map (Cmult c) data) dt = option_map (map (Rmult ((Cmod c) ^ 2))) (numpy_power argsort fr data dt).
Proof.
  unfold numpy_power, fft_power. destruct fr as [|f0 [|f1 fr]]; try reflexivity. rewrite map_length.
  destruct (division_of_data _ _ _ _) as [pieces|]; [|reflexivity]. cbn [obind].
  rewrite (map_ext _ (fun p => map (Rmult (Cmod c ^ 2)) (piece_power dt (slice data p)))) by (intros p; rewrite slice_map; apply piece_power_scale).
  rewrite <- (map_map (fun p => piece_power dt (slice data p)) (map (Rmult (Cmod c ^ 2)))), average0_scale.
  destruct (average0 _) as [ps|]; [|reflexivity]. cbn [obind option_map]. rewrite slice_map, map_length.
  rewrite <- interp_scale. f_equal. unfold take. rewrite map_map. apply map_ext. intros k.
  replace 0 with (Cmod c ^ 2 * 0) at 1 by ring. apply map_nth.
Qed.
Lemma rsum_bounds {A} (f : A -> R) l lo hi : (forall a, In a l -> lo <= f a <= hi) -> INR (length l) * lo <= rsum (map f l) <= INR (length l) * hi.
Proof.
  induction l as [|a l IH]; intros H; [cbn; lra|]. cbn [map rsum fold_right length]. rewrite S_INR. fold (rsum (map f l)).
  specialize (IH ltac:(intros; apply H; right; assumption)). specialize (H a (or_introl eq_refl)). lra.
Qed.
Lemma avg_bounds dt data pieces k lo hi : pieces <> [] ->
  (forall p, In p pieces -> lo <= nth k (piece_power dt (slice data p)) 0 <= hi) -> lo <= avg dt data pieces k <= hi.
Proof.
  intros Hne H. unfold avg. assert (L : 0 < INR (length pieces)) by (apply lt_0_INR; destruct pieces; [congruence|cbn; lia]).
  pose proof (rsum_bounds (fun p => nth k (piece_power dt (slice data p)) 0) pieces lo hi H) as [A B].
  split; apply (Rmult_le_reg_r (INR (length pieces))); try exact L; unfold Rdiv; rewrite Rmult_assoc, Rinv_l by lra; lra.
Qed.
Lemma avg_eq dt data pieces k v : pieces <> [] -> (forall p, In p pieces -> nth k (piece_power dt (slice data p)) 0 = v) -> avg dt data pieces k = v.
Proof. intros Hne H. apply Rle_antisym; apply (avg_bounds dt data pieces k v v Hne); intros p Hp; rewrite (H p Hp); lra. Qed.
Lemma avg_ext dt data pieces k k' : (forall p, In p pieces -> nth k (piece_power dt (slice data p)) 0 = nth k' (piece_power dt (slice data p)) 0) -> avg dt data pieces k = avg dt data pieces k'.
Proof. intros H. unfold avg. f_equal. f_equal. apply map_ext_in, H. Qed.
Lemma slice_nth data p j : (0 <= fst p)%Z -> (j < length (slice data p))%nat -> nth j (slice data p) (RtoC 0) = nth (Z.to_nat (fst p) + j) data (RtoC 0).
Proof.
  intros H Hj. unfold slice in *. rewrite firstn_length, skipn_length in Hj. generalize dependent (Z.to_nat (snd p) - Z.to_nat (fst p))%nat. intros m Hm.
  rewrite <- (firstn_skipn (Z.to_nat (fst p)) data) at 2. destruct (Nat.le_gt_cases (length data) (Z.to_nat (fst p))) as [L|L]; [lia|].
  rewrite app_nth2 by (rewrite firstn_length; lia). rewrite firstn_length, Nat.min_l by lia. replace (Z.to_nat (fst p) + j - Z.to_nat (fst p))%nat with j by lia.
  rewrite <- (firstn_skipn m (skipn (Z.to_nat (fst p)) data)) at 2. rewrite app_nth1; [reflexivity|]. rewrite firstn_length, skipn_length. lia.
Qed.
Lemma tone_slice A n s0 dt N p : (1 <= n)%nat -> 0 < dt -> (0 <= fst p)%Z -> length (slice (tone A (grid_frequency n dt s0) dt N) p) = n ->
  exists A', Cmod A' = Cmod A /\ is_tone A' n s0 (slice (tone A (grid_frequency n dt s0) dt N) p).
Proof.
  intros Hn Hdt Hp HL. assert (H0 : 0 < INR n) by (apply lt_0_INR; lia). set (o := Z.to_nat (fst p)).
  exists (Cmult A (cis (2 * PI * IZR s0 * INR o / INR n))). split; [rewrite Cmod_mult, cis_mod; ring|]. split; [exact HL|].
  intros j Hj. rewrite slice_nth by (assumption || lia). fold o.
  assert (Hlt : (o + j < N)%nat).
  { unfold slice in HL. rewrite firstn_length, skipn_length in HL. unfold tone in HL. rewrite map_length, seq_length in HL. unfold o. lia. }
  unfold tone. rewrite nth_map_seq by exact Hlt. change (cos ?t, sin ?t) with (cis t).
  replace (2 * PI * grid_frequency n dt s0 * (INR (o + j) * dt)) with (2 * PI * IZR s0 * INR o / INR n + 2 * PI * IZR s0 * INR j / INR n)
    by (unfold grid_frequency; rewrite plus_INR; field; lra).
  rewrite cis_add. apply Cmult_assoc.
Qed.
Lemma piece_power_position dt x n s : length x = n -> (1 <= n)%nat -> resolved n s -> nth (position n s) (piece_power dt x) 0 = Cmod (dft x s) * dt.
Proof.
  intros HL Hn Hs. destruct (position_spec n s Hn Hs) as [P1 [_ [z Ez]]]. rewrite piece_power_nth by (rewrite HL; exact P1).
  rewrite Ez, <- HL, dft_period by (rewrite HL; exact Hn). reflexivity.
Qed.
Lemma backends_agree fr argsort data dt : 0 <= dt -> cuda_power argsort fr data dt = numpy_power argsort fr data dt.
Proof.
  intros H. unfold cuda_power, numpy_power, fft_power. destruct fr as [|f0 [|f1 fr]]; try reflexivity.
  destruct (division_of_data _ _ _ _) as [pieces|]; [|reflexivity]. cbn [obind].
  rewrite (map_ext (fun p => piece_power_cuda dt (slice data p)) (fun p => piece_power dt (slice data p))); [reflexivity|].
  intros p. unfold piece_power_cuda, piece_power. cbv zeta. apply map_ext. intros z. rewrite Cmod_mult, Cmod_R, Rabs_pos_eq by exact H. reflexivity.
Qed.
Lemma nodup_map_in {A B} (f : A -> B) l : (forall a b, In a l -> In b l -> f a = f b -> a = b) -> NoDup l -> NoDup (map f l).
Proof.
  induction l as [|x l IH]; intros H N; [constructor|]. inversion N as [|? ? N1 N2]; subst. cbn. constructor.
  - intros I. apply in_map_iff in I as [y [E Hy]]. assert (y = x) by (apply H; [right; exact Hy|left; reflexivity|exact E]). subst y. exact (N1 Hy).
  - apply IH; [|exact N2]. intros a b Ha Hb. apply H; right; assumption.
Qed.
(** the complete grid: the returned values sum to the average over the pieces of their spectra's sums *)
Lemma full_grid_sum argsort data dt n : 0 < dt -> (2 <= n)%nat -> (n < length data)%nat -> sorts argsort (fftfreq n dt) ->
  exists out pieces, numpy_power argsort (full_grid n dt) data dt = Some out /\
  division_of_data exact (1 / (INR n * dt)) (Z.of_nat (length data)) dt = Some pieces /\ pieces <> [] /\
  (forall p, In p pieces -> (0 <= fst p)%Z /\ (snd p <= Z.of_nat (length data))%Z /\ length (slice data p) = n) /\
  rsum out = rsum (map (fun p => rsum (piece_power dt (slice data p))) pieces) / INR (length pieces).
Proof.
  intros Hdt Hn HN Hs. assert (H0 : 0 < INR n) by (apply lt_0_INR; lia).
  assert (Eg : exists f0 f1 fr, full_grid n dt = f0 :: f1 :: fr /\ f1 - f0 = 1 / (INR n * dt)).
  { destruct n as [|[|n]]; try lia. unfold full_grid. cbn [seq map]. do 3 eexists. split; [reflexivity|].
    unfold grid_frequency. rewrite !minus_IZR. change (Z.of_nat 1) with 1%Z. change (Z.of_nat 0) with 0%Z. field. split; lra. }
  destruct Eg as [f0 [f1 [fr [Eg Ed]]]].
  assert (Ea : around (1 / (dt * (f1 - f0))) = Z.of_nat n).
  { rewrite Ed. replace (1 / (dt * (1 / (INR n * dt)))) with (IZR (Z.of_nat n)) by (rewrite <- INR_IZR_INZ; field; split; lra). apply around_IZR. }
  assert (En : Z.to_nat (piece_length (Z.of_nat (length data)) (around (1 / (dt * (f1 - f0))))) = n).
  { rewrite Ea. unfold piece_length. destruct (Z.leb_spec (Z.of_nat n) (Z.of_nat (length data) - 1)); lia. }
  destruct (numpy_power_structure argsort f0 f1 fr data dt Hdt ltac:(lia) ltac:(rewrite Ea; lia) ltac:(rewrite En; exact Hs))
    as [_ [pieces [Ep [Hne [HL [out [E [L V]]]]]]]].
  rewrite En in HL, V. rewrite Ed in Ep. exists out, pieces. split; [rewrite Eg; exact E|]. split; [exact Ep|]. split; [exact Hne|]. split; [exact HL|].
  rewrite <- Eg in L, V.
  assert (Lo : length out = n) by (rewrite L; unfold full_grid; rewrite map_length, seq_length; reflexivity).
  assert (Vo : forall k, (k < n)%nat -> nth k out 0 = avg dt data pieces (position n (Z.of_nat k - Z.of_nat n / 2))).
  { intros k Hk. assert (Kk : nth_error (full_grid n dt) k = Some (grid_frequency n dt (Z.of_nat k - Z.of_nat n / 2))).
    { unfold full_grid. apply (map_nth_error (fun k => grid_frequency n dt (Z.of_nat k - Z.of_nat n / 2))). rewrite (nth_error_nth' _ 0%nat) by (rewrite seq_length; exact Hk). rewrite seq_nth by exact Hk. reflexivity. }
    assert (Rk : resolved n (Z.of_nat k - Z.of_nat n / 2)).
    { unfold resolved. pose proof (half_facts n). lia. }
    destruct (V k _ Kk) as [y [Y1 Y2]]. rewrite (value_at_grid argsort n dt) in Y2 by (assumption || lia). injection Y2 as <-.
    apply nth_error_nth with (d := 0) in Y1. rewrite Y1. destruct (position_spec n _ ltac:(lia) Rk) as [P1 _]. apply nth_map_seq, P1. }
  (* the n positions are a permutation of 0..n-1 *)
  assert (Pm : Permutation (map (fun k => position n (Z.of_nat k - Z.of_nat n / 2)) (seq 0 n)) (seq 0 n)).
  { apply NoDup_Permutation_bis.
    - apply nodup_map_in; [|apply seq_NoDup]. intros a b Ha Hb Eab. apply in_seq in Ha, Hb.
      pose proof (half_facts n) as HF.
      assert (Ra : resolved n (Z.of_nat a - Z.of_nat n / 2)) by (unfold resolved; lia).
      assert (Rb : resolved n (Z.of_nat b - Z.of_nat n / 2)) by (unfold resolved; lia).
      destruct (position_spec n _ ltac:(lia) Ra) as [_ [Qa _]]. destruct (position_spec n _ ltac:(lia) Rb) as [_ [Qb _]].
      rewrite Eab in Qa. lia.
    - rewrite map_length, !seq_length. lia.
    - intros q Hq. apply in_map_iff in Hq as [k [<- Hk]]. apply in_seq in Hk. apply in_seq.
      assert (Rk : resolved n (Z.of_nat k - Z.of_nat n / 2)) by (unfold resolved; pose proof (half_facts n); lia).
      destruct (position_spec n _ ltac:(lia) Rk) as [P1 _]. lia. }
  assert (So : rsum out = rsumn n (avg dt data pieces)).
  { rewrite rsum_nth, Lo, (rsumn_ext n _ _ Vo). unfold rsumn.
    rewrite <- (map_map (fun k => position n (Z.of_nat k - Z.of_nat n / 2)) (avg dt data pieces)).
    apply (Permutation_map (avg dt data pieces)) in Pm. revert Pm. generalize (map (avg dt data pieces) (seq 0 n)).
    generalize (map (avg dt data pieces) (map (fun k => position n (Z.of_nat k - Z.of_nat n / 2)) (seq 0 n))). intros l1 l2 Pl.
    induction Pl as [|a l l' Pl IH|a b l|l l' l'' P1 IH1 P2 IH2]; cbn in *; unfold rsum in *; lra. }
  assert (Lp : 0 < INR (length pieces)) by (apply lt_0_INR; destruct pieces; [congruence|cbn; lia]).
  assert (Sw : rsumn n (avg dt data pieces) = rsum (map (fun p => rsum (piece_power dt (slice data p))) pieces) / INR (length pieces)).
  { unfold avg. rewrite (rsumn_ext n _ (fun k => / INR (length pieces) * rsum (map (fun p => nth k (piece_power dt (slice data p)) 0) pieces)))
      by (intros; unfold Rdiv; ring).
    rewrite rsumn_scal. unfold Rdiv. rewrite Rmult_comm. f_equal. clear - HL. induction pieces as [|p pieces IH].
    - cbn. unfold rsumn. induction (seq 0 n) as [|a l IH]; cbn in *; unfold rsum in *; lra.
    - cbn [map]. unfold rsum at 2. cbn [fold_right]. fold (rsum (map (fun p => rsum (piece_power dt (slice data p))) pieces)).
      rewrite <- IH by (intros; apply HL; right; assumption).
      rewrite rsum_nth, piece_power_length, (proj2 (proj2 (HL p (or_introl eq_refl)))).
      clear. induction n as [|n IHn]; [cbn; ring|]. rewrite !rsumn_S, IHn. unfold rsum. cbn [fold_right]. ring. }
  rewrite So. exact Sw.
Qed.
(** the piece a, -a, a: spectrum a^2 (1/3, 5/3, 5/3) *)
Lemma alternating_sum a : rsum (piece_power 1 [RtoC a; RtoC (- a); RtoC a]) = 11 / 3 * a ^ 2.
Proof.
  set (x := [RtoC a; RtoC (- a); RtoC a]). rewrite rsum_nth, piece_power_length. change (length x) with 3%nat. rewrite !rsumn_S.
  rewrite !piece_power_nth by (cbn; lia).
  assert (A0 : acorr x 0 = RtoC (- (2 / 3) * a ^ 2)) by (unfold acorr, csumn, x; cbn -[INR]; simpl INR; unfold Cdiv; rewrite <- RtoC_inv by lra; unfold cget; cbn; change (Pos.to_nat 1) with 1%nat; change (Pos.to_nat 2) with 2%nat; try change (Pos.to_nat 3) with 3%nat; apply Ceq; cbn; field).
  assert (A1 : acorr x 1 = RtoC (a ^ 2)) by (unfold acorr, csumn, x; cbn -[INR]; simpl INR; unfold Cdiv; rewrite <- RtoC_inv by lra; unfold cget; cbn; change (Pos.to_nat 1) with 1%nat; change (Pos.to_nat 2) with 2%nat; try change (Pos.to_nat 3) with 3%nat; apply Ceq; cbn; field).
  assert (A2 : acorr x 2 = RtoC (- (2 / 3) * a ^ 2)) by (unfold acorr, csumn, x; cbn -[INR]; simpl INR; unfold Cdiv; rewrite <- RtoC_inv by lra; unfold cget; cbn; change (Pos.to_nat 1) with 1%nat; change (Pos.to_nat 2) with 2%nat; try change (Pos.to_nat 3) with 3%nat; apply Ceq; cbn; field).
  assert (F : forall s, Cmod (dft x s) = a ^ 2 * Rabs (1 - 4 / 3 * cos (2 * PI * IZR s / 3))).
  { intros s. set (t := 2 * PI * IZR s / 3).
    assert (E : dft x s = Cmult (cis (- t)) (RtoC (a ^ 2 * (1 - 4 / 3 * cos t)))).
    { unfold dft. change (length x) with 3%nat. rewrite !csumn_S, csumn_0, A0, A1, A2. cbn [INR].
      replace (- (2 * PI * IZR s * 0 / (1 + 1 + 1))) with (- t + t) by (unfold t; field).
      replace (- (2 * PI * IZR s * 1 / (1 + 1 + 1))) with (- t) by (unfold t; field).
      replace (- (2 * PI * IZR s * (1 + 1) / (1 + 1 + 1))) with (- t + - t) by (unfold t; field).
      rewrite !cis_add. replace (cis t) with (cos t, sin t) by reflexivity. replace (cis (- t)) with (cos t, - sin t) by (unfold cis; rewrite cos_neg, sin_neg; reflexivity).
      apply Ceq; cbn; field. }
    rewrite E, Cmod_mult, cis_mod, Cmod_R, Rabs_mult, (Rabs_pos_eq (a ^ 2)) by (apply pow2_ge_0). ring. }
  rewrite !F. cbn [Z.of_nat Pos.of_succ_nat Pos.succ]. 
  replace (2 * PI * 0 / 3) with 0 by field. rewrite cos_0.
  replace (2 * PI * 1 / 3) with (2 * (PI / 3)) by field. replace (2 * PI * 2 / 3) with (- (2 * (PI / 3)) + 2 * INR 1 * PI) by (cbn [INR]; field).
  rewrite cos_period, cos_neg, cos_2PI3. rewrite (Rabs_left (1 - 4 / 3 * 1)) by lra. rewrite (Rabs_pos_eq (1 - 4 / 3 * (-1 / 2))) by lra. cbn [rsumn rsum map seq fold_right]. field.
Qed.
