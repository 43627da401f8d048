From Verif Require Import MemModel MemSpec.
From Coq Require Import Lra Lia.
Open Scope R_scope.
Local Open Scope c_scope.

Lemma sum_from_ext f g : forall n a, (forall j, (a <= j < a + n)%nat -> f j = g j) -> sum_from a n f = sum_from a n g.
Proof.
  induction n as [|n IH]; intros a H; simpl; [reflexivity|]. rewrite H by lia. rewrite (IH (S a)); [reflexivity|].
  intros j Hj. apply H. lia.
Qed.
Lemma sum_from_S f : forall n a, sum_from a (S n) f = sum_from a n f + f (a + n)%nat.
Proof.
  induction n as [|n IH]; intros a; [simpl; rewrite Nat.add_0_r; ring|].
  change (sum_from a (S (S n)) f) with (f a + sum_from (S a) (S n) f). rewrite IH. simpl.
  replace (S (a + n)) with (a + S n)%nat by lia. ring.
Qed.

(** every read of the power loop stays below N+1: one element too far *)
Lemma mem_power_oob data N : (1 <= N)%nat -> asize data = N -> mem_power data N = None.
Proof.
  intros HN Hs. unfold mem_power. apply for_none. exists N. split; [lia|]. intros p. rewrite rd_oob by lia. reflexivity.
Qed.
Lemma GetCoefficients_oob data N M : asize data = N -> GetCoefficients data N M = None.
Proof.
  intros Hs. unfold GetCoefficients. destruct N as [|N].
  - unfold mem_power; simpl. unfold mem_fill. rewrite rd_oob by lia. reflexivity.
  - rewrite mem_power_oob by (assumption || lia). reflexivity.
Qed.

Definition new_a (k : nat) (r : R) (a : nat -> R) : nat -> R :=
  fun i => if i =? k then r else if ((i <? k) && (1 <=? i))%bool then a i - r * a (k - i)%nat else a i.
Lemma new_a_same k r a : new_a k r a k = r.
Proof. unfold new_a. rewrite Nat.eqb_refl. reflexivity. Qed.
Lemma new_a_lt k r a i : (1 <= i < k)%nat -> new_a k r a i = a i - r * a (k - i)%nat.
Proof.
  intros H. unfold new_a. replace (i =? k) with false by (symmetry; apply Nat.eqb_neq; lia).
  replace (i <? k) with true by (symmetry; apply Nat.ltb_lt; lia). replace (1 <=? i) with true by (symmetry; apply Nat.leb_le; lia). reflexivity.
Qed.


Section Run.
Variable x : nat -> R.
Variable data : arr R.
Variables N M : nat.
Hypothesis HN : (2 <= N)%nat.
Hypothesis Hdata : forall j, (1 <= j <= N)%nat -> rd data j = Some (x j).

Lemma mem_power_ok : mem_power data N = Some (sum_from 1 N (fun j => x j ^ 2)).
Proof.
  unfold mem_power.
  destruct (for_rule (fun j p => p = sum_from 1 (j - 1) (fun j => x j ^ 2))
    (fun j p => y <- rd data j; Some (p + y ^ 2)) N 1 0) as [p [E I]].
  - reflexivity.
  - intros j p Hj ->. rewrite Hdata by lia. simpl bind. eexists. split; [reflexivity|].
    replace (S j - 1)%nat with (S (j - 1)) by lia. rewrite sum_from_S. replace (1 + (j - 1))%nat with j by lia. reflexivity.
  - replace (1 + N - 1)%nat with N in I by lia. subst p. exact E.
Qed.

Lemma mem_fill_ok : exists w, mem_fill data N = Some w /\ asize (fst w) = N /\ asize (snd w) = N /\
  (forall j, (1 <= j <= N - 1)%nat -> rd (fst w) j = Some (x j) /\ rd (snd w) j = Some (x (j + 1)%nat)).
Proof.
  unfold mem_fill. rewrite Hdata by lia. simpl bind.
  destruct (wr_ok (malloc N) 1 (x 1%nat)) as [w1 E1]; [simpl; lia|]. rewrite E1. simpl bind.
  rewrite Hdata by lia. simpl bind.
  destruct (wr_ok (malloc N) (N - 1) (x N)) as [w2 E2]; [simpl; lia|]. rewrite E2. simpl bind.
  destruct (for_rule (fun j (w : arr R * arr R) => asize (fst w) = N /\ asize (snd w) = N /\
      (forall i, (1 <= i < j)%nat -> rd (fst w) i = Some (x i)) /\
      (forall i, (1 <= i < j - 1)%nat -> rd (snd w) i = Some (x (i + 1)%nat)) /\ rd (snd w) (N - 1) = Some (x N))
    (fun j w => d <- rd data j; a <- wr (fst w) j d; d' <- rd data j; b <- wr (snd w) (j - 1) d'; Some (a, b))
    (N - 2) 2 (w1, w2)) as [w [E I]].
  - simpl. assert (S1 := wr_size _ _ _ _ E1). assert (S2 := wr_size _ _ _ _ E2). simpl in S1, S2.
    split; [assumption|]. split; [assumption|]. split; [|split; [|apply (rd_wr_same _ _ _ _ E2)]].
    + intros i Hi. replace i with 1%nat by lia. apply (rd_wr_same _ _ _ _ E1).
    + intros i Hi. lia.
  - intros j [a b] Hj [S1 [S2 [I1 [I2 I3]]]]. simpl in *. rewrite Hdata by lia. simpl bind.
    destruct (wr_ok a j (x j)) as [a' Ea]; [lia|]. rewrite Ea. simpl bind.
    destruct (wr_ok b (j - 1) (x j)) as [b' Eb]; [lia|]. rewrite Eb. simpl.
    eexists. split; [reflexivity|]. simpl. rewrite (wr_size _ _ _ _ Ea), (wr_size _ _ _ _ Eb).
    split; [assumption|]. split; [assumption|]. split; [|split].
    + intros i Hi. destruct (Nat.eq_dec i j) as [->|D]; [apply (rd_wr_same _ _ _ _ Ea)|].
      rewrite (rd_wr_other _ _ _ _ _ Ea D). apply I1. lia.
    + intros i Hi. destruct (Nat.eq_dec i (j - 1)) as [->|D].
      * rewrite (rd_wr_same _ _ _ _ Eb). f_equal. f_equal. lia.
      * rewrite (rd_wr_other _ _ _ _ _ Eb D). apply I2. lia.
    + rewrite (rd_wr_other _ _ _ (N - 1) _ Eb); [exact I3|lia].
  - exists w. split; [exact E|]. destruct I as [S1 [S2 [I1 [I2 I3]]]]. split; [assumption|]. split; [assumption|].
    intros j Hj. split; [apply I1; lia|]. destruct (Nat.eq_dec j (N - 1)) as [->|D].
    + rewrite I3. f_equal. f_equal. lia.
    + apply I2. lia.
Qed.

Lemma mem_sums_ok k wk1 wk2 s : (forall j, (1 <= j <= N - k)%nat -> rd wk1 j = Some (b_fwd s j) /\ rd wk2 j = Some (b_bwd s j)) ->
  mem_sums N k wk1 wk2 = Some (burg_num N k s, burg_den N k s).
Proof.
  intros H. unfold mem_sums.
  destruct (for_rule (fun j nd => nd = (sum_from 1 (j - 1) (fun j => b_fwd s j * b_bwd s j), sum_from 1 (j - 1) (fun j => b_fwd s j ^ 2 + b_bwd s j ^ 2)))
    (fun j nd => a <- rd wk1 j; b <- rd wk2 j; Some (fst nd + a * b, snd nd + (a ^ 2 + b ^ 2))) (N - k) 1 (0, 0)) as [p [E I]].
  - reflexivity.
  - intros j nd Hj ->. destruct (H j ltac:(lia)) as [-> ->]. simpl bind. eexists. split; [reflexivity|].
    replace (S j - 1)%nat with (S (j - 1)) by lia. rewrite !sum_from_S. replace (1 + (j - 1))%nat with j by lia. reflexivity.
  - replace (1 + (N - k) - 1)%nat with (N - k)%nat in I by lia. subst p. exact E.
Qed.

Lemma mem_coefs_ok k wkm coef a r : (1 <= k)%nat -> (k <= M)%nat -> asize coef = (M + 1)%nat ->
  rd coef k = Some r -> (forall i, (1 <= i <= k - 1)%nat -> rd wkm i = Some (a i)) ->
  exists c, mem_coefs k wkm coef = Some c /\ asize c = (M + 1)%nat /\ (forall i, (1 <= i <= k)%nat -> rd c i = Some (new_a k r a i)).
Proof.
  intros Hk HM Hs Hr Hw. unfold mem_coefs.
  destruct (for_rule (fun j c => asize c = (M + 1)%nat /\ rd c k = Some r /\ forall i, (1 <= i < j)%nat -> (i < k)%nat -> rd c i = Some (new_a k r a i))
    (fun i c => a <- rd wkm i; ck <- rd c k; b <- rd wkm (k - i); wr c i (a - ck * b)) (k - 1) 1 coef) as [c [E [I1 [I2 I3]]]].
  - split; [assumption|]. split; [assumption|]. intros; lia.
  - intros j c Hj [I1 [I2 I3]]. rewrite (Hw j) by lia. simpl bind. rewrite I2. simpl bind. rewrite (Hw (k - j)%nat) by lia. simpl bind.
    destruct (wr_ok c j (a j - r * a (k - j)%nat)) as [c' E]; [lia|]. exists c'. split; [exact E|].
    rewrite (wr_size _ _ _ _ E). split; [assumption|]. rewrite (rd_wr_other _ _ _ k _ E) by lia. split; [assumption|].
    intros i Hi Hik. destruct (Nat.eq_dec i j) as [->|D].
    + rewrite (rd_wr_same _ _ _ _ E), new_a_lt by lia. reflexivity.
    + rewrite (rd_wr_other _ _ _ _ _ E D). apply I3; lia.
  - exists c. split; [exact E|]. split; [assumption|]. intros i Hi. destruct (Nat.eq_dec i k) as [->|D].
    + rewrite new_a_same. assumption.
    + apply I3; lia.
Qed.
Lemma mem_save_ok k wkm coef a : (k < M)%nat -> asize wkm = M -> (forall i, (1 <= i <= k)%nat -> rd coef i = Some (a i)) ->
  exists w, mem_save k wkm coef = Some w /\ asize w = M /\ (forall i, (1 <= i <= k)%nat -> rd w i = Some (a i)).
Proof.
  intros HM Hs Hc. unfold mem_save.
  destruct (for_rule (fun j w => asize w = M /\ forall i, (1 <= i < j)%nat -> rd w i = Some (a i))
    (fun i w => c <- rd coef i; wr w i c) k 1 wkm) as [w [E [I1 I2]]].
  - split; [assumption|]. intros; lia.
  - intros j w Hj [I1 I2]. rewrite (Hc j) by lia. simpl bind. destruct (wr_ok w j (a j)) as [w' E]; [lia|]. exists w'. split; [exact E|].
    rewrite (wr_size _ _ _ _ E). split; [assumption|]. intros i Hi. destruct (Nat.eq_dec i j) as [->|D].
    + apply (rd_wr_same _ _ _ _ E).
    + rewrite (rd_wr_other _ _ _ _ _ E D). apply I2. lia.
  - exists w. split; [exact E|]. split; [assumption|]. intros i Hi. apply I2. lia.
Qed.
Lemma mem_update_ok k wkm wk1 wk2 f b r : (1 <= k)%nat -> rd wkm k = Some r -> asize wk1 = N -> asize wk2 = N ->
  (forall j, (1 <= j <= N - k)%nat -> rd wk1 j = Some (f j) /\ rd wk2 j = Some (b j)) ->
  exists w, mem_update N k wkm wk1 wk2 = Some w /\ asize (fst w) = N /\ asize (snd w) = N /\
  (forall j, (1 <= j <= N - S k)%nat -> rd (fst w) j = Some (f j - r * b j) /\ rd (snd w) j = Some (b (j + 1)%nat - r * f (j + 1)%nat)).
Proof.
  intros Hk Hr S1 S2 H. unfold mem_update.
  destruct (for_rule (fun j (w : arr R * arr R) => asize (fst w) = N /\ asize (snd w) = N /\
     (forall i, (1 <= i < j)%nat -> rd (fst w) i = Some (f i - r * b i) /\ rd (snd w) i = Some (b (i + 1)%nat - r * f (i + 1)%nat)) /\
     (forall i, (1 <= i)%nat -> (j <= i <= N - k)%nat -> rd (fst w) i = Some (f i) /\ rd (snd w) i = Some (b i)))
    (fun j w =>
    a <- rd (fst w) j; r <- rd wkm k; b <- rd (snd w) j; w1 <- wr (fst w) j (a - r * b);
    b' <- rd (snd w) (j + 1); r' <- rd wkm k; a' <- rd w1 (j + 1); w2 <- wr (snd w) j (b' - r' * a');
    Some (w1, w2)) (N - k - 1) 1 (wk1, wk2)) as [w [E [I1 [I2 [I3 I4]]]]].
  - simpl. split; [assumption|]. split; [assumption|]. split; [intros; lia|]. intros i _ Hi. apply H. lia.
  - intros j [u v] Hj [I1 [I2 [I3 I4]]]. simpl in *.
    destruct (I4 j) as [Eu Ev]; [lia|lia|]. rewrite Eu, Hr, Ev. simpl bind.
    destruct (wr_ok u j (f j - r * b j)) as [u' E1]; [lia|]. rewrite E1. simpl bind.
    destruct (I4 (j + 1)%nat) as [Eu' Ev']; [lia|lia|]. rewrite Ev'. simpl bind.
    rewrite (rd_wr_other _ _ _ (j + 1) _ E1) by lia. rewrite Eu'. simpl bind.
    destruct (wr_ok v j (b (j + 1)%nat - r * f (j + 1)%nat)) as [v' E2]; [lia|]. rewrite E2. simpl.
    eexists. split; [reflexivity|]. simpl. rewrite (wr_size _ _ _ _ E1), (wr_size _ _ _ _ E2).
    split; [assumption|]. split; [assumption|]. split.
    + intros i Hi. destruct (Nat.eq_dec i j) as [->|D].
      * split; [apply (rd_wr_same _ _ _ _ E1)|apply (rd_wr_same _ _ _ _ E2)].
      * rewrite (rd_wr_other _ _ _ _ _ E1 D), (rd_wr_other _ _ _ _ _ E2 D). apply I3. lia.
    + intros i Hi1 Hi. rewrite (rd_wr_other _ _ _ i _ E1) by lia. rewrite (rd_wr_other _ _ _ i _ E2) by lia. apply I4; lia.
  - exists w. split; [exact E|]. split; [assumption|]. split; [assumption|]. intros j Hj. apply I3. lia.
Qed.

Definition refines (k : nat) (r : mrun) : Prop :=
  let b := burg x N (k - 1) in
  match r with
  | Ret v c => v = 0 /\ b_dead b = true /\ b_msd b = 0 /\ asize c = (M + 1)%nat
  | Go s => b_dead b = false /\ m_msd s = b_msd b /\ asize (m_coef s) = (M + 1)%nat /\
      (forall i, (1 <= i <= k - 1)%nat -> rd (m_coef s) i = Some (b_a b i)) /\
      ((k <= M)%nat -> asize (m_wk1 s) = N /\ asize (m_wk2 s) = N /\ asize (m_wkm s) = M /\
         (forall i, (1 <= i <= k - 1)%nat -> rd (m_wkm s) i = Some (b_a b i)) /\
         (forall j, (1 <= j <= N - k)%nat -> rd (m_wk1 s) j = Some (b_fwd b j) /\ rd (m_wk2 s) j = Some (b_bwd b j)))
  end.

Lemma burg_S k : (1 <= k)%nat -> burg x N k = burg_step N k (burg x N (k - 1)).
Proof. intros H. destruct k as [|k]; [lia|]. simpl. rewrite Nat.sub_0_r. reflexivity. Qed.

Lemma mem_iter_ok k r : (1 <= k <= M)%nat -> refines k r -> exists r', mem_iter N M k r = Some r' /\ refines (S k) r'.
Proof.
  intros Hk Hr. unfold refines in Hr |- *. replace (S k - 1)%nat with k by lia. rewrite (burg_S k) by lia. cbv zeta in *.
  set (b := burg x N (k - 1)) in *. clearbody b.
  destruct r as [s|v c].
  2:{ destruct Hr as [-> [D [Z S]]]. exists (Ret 0 c). split; [reflexivity|]. unfold burg_step. rewrite D. split; [reflexivity|]. split; [assumption|]. split; assumption. }
  destruct Hr as [D [Hm [Sc [Hc Hw]]]]. destruct (Hw (proj2 Hk)) as [S1 [S2 [S3 [Hwkm Hwk]]]].
  unfold mem_iter. rewrite (mem_sums_ok k _ _ b Hwk). cbn [bind fst snd].
  unfold burg_step. rewrite D.
  destruct (Rlt_dec (Rabs (burg_den N k b)) (1 / 1000000)) as [L|L].
  - eexists. split; [reflexivity|]. simpl. repeat split; assumption.
  - fold (reflection N k b). set (r := reflection N k b).
    destruct (wr_ok (m_coef s) k r) as [c1 E1]; [lia|]. rewrite E1. cbn [bind].
    destruct (mem_coefs_ok k (m_wkm s) c1 (b_a b) r ltac:(lia) ltac:(lia)) as [c2 [E2 [Sc2 Hc2]]].
    { rewrite (wr_size _ _ _ _ E1). assumption. } { apply (rd_wr_same _ _ _ _ E1). } { assumption. }
    rewrite E2. cbn [bind]. destruct (Nat.eqb_spec k M) as [->|Ne].
    + eexists. split; [reflexivity|]. simpl. split; [reflexivity|]. split; [rewrite Hm; reflexivity|]. split; [assumption|].
      split; [exact Hc2|]. intros; lia.
    + destruct (mem_save_ok k (m_wkm s) c2 (new_a k r (b_a b)) ltac:(lia) S3 Hc2) as [w [E3 [Sw Hw3]]]. rewrite E3. cbn [bind].
      destruct (mem_update_ok k w (m_wk1 s) (m_wk2 s) (b_fwd b) (b_bwd b) r ltac:(lia)) as [u [E4 [U1 [U2 U3]]]]; try assumption.
      { rewrite (Hw3 k) by lia. rewrite new_a_same. reflexivity. }
      rewrite E4. cbn [bind]. eexists. split; [reflexivity|]. simpl.
      split; [reflexivity|]. split; [rewrite Hm; reflexivity|]. split; [assumption|]. split; [exact Hc2|].
      intros _. split; [assumption|]. split; [assumption|]. split; [assumption|]. split; [exact Hw3|]. exact U3.
Qed.

Lemma GetCoefficients_ok : exists v c, GetCoefficients data N M = Some (v, c) /\ v = b_msd (burg x N M) /\
  asize c = (M + 1)%nat /\ (b_dead (burg x N M) = false -> forall i, (1 <= i <= M)%nat -> rd c i = Some (b_a (burg x N M) i)) /\
  (b_dead (burg x N M) = true -> v = 0).
Proof.
  unfold GetCoefficients. rewrite mem_power_ok. cbn [bind].
  destruct mem_fill_ok as [w [Ew [W1 [W2 W3]]]]. rewrite Ew. cbn [bind].
  destruct (for_rule refines (mem_iter N M) M 1 (Go (MkM (fst w) (snd w) (malloc M) (malloc (M + 1)) (sum_from 1 N (fun j => x j ^ 2) / INR N)))) as [r [Er Ir]].
  - unfold refines. cbn. split; [reflexivity|]. split; [reflexivity|]. split; [reflexivity|]. split; [intros; lia|].
    intros _. split; [assumption|]. split; [assumption|]. split; [reflexivity|]. split; [intros; lia|].
    intros j Hj. apply W3. exact Hj.
  - intros k r Hk. apply mem_iter_ok. lia.
  - rewrite Er. cbn [bind]. unfold refines in Ir. replace (1 + M - 1)%nat with M in Ir by lia. cbv zeta in Ir. destruct r as [s|v c].
    + destruct Ir as [D [Hm [Sc [Hc _]]]]. exists (m_msd s), (m_coef s). split; [reflexivity|]. split; [assumption|].
      split; [assumption|]. split; [intros _; exact Hc|]. congruence.
    + destruct Ir as [-> [D [Z S]]]. exists 0, c. split; [reflexivity|]. split; [symmetry; assumption|]. split; [assumption|].
      split; [congruence|reflexivity].
Qed.
End Run.

(* ---------- Burg facts ---------- *)
Lemma sum_from_nonneg f : forall n a, (forall j, 0 <= f j) -> 0 <= sum_from a n f.
Proof. induction n as [|n IH]; intros a H; simpl; [lra|]. specialize (IH (S a) H). specialize (H a). lra. Qed.
Lemma num_den_bound N k s : - burg_den N k s <= 2 * burg_num N k s <= burg_den N k s.
Proof.
  unfold burg_num, burg_den.
  assert (G : forall n a, - sum_from a n (fun j => b_fwd s j ^ 2 + b_bwd s j ^ 2) <= 2 * sum_from a n (fun j => b_fwd s j * b_bwd s j) <= sum_from a n (fun j => b_fwd s j ^ 2 + b_bwd s j ^ 2)); [|apply G].
  induction n as [|n IH]; intros a; cbn [sum_from]; [lra|].
  specialize (IH (S a)). set (f := b_fwd s a). set (g := b_bwd s a).
  pose proof (Rle_0_sqr (f + g)) as H1. pose proof (Rle_0_sqr (f - g)) as H2. unfold Rsqr in H1, H2. split; lra.
Qed.
Lemma den_nonneg N k s : 0 <= burg_den N k s.
Proof. pose proof (num_den_bound N k s). lra. Qed.
Lemma reflection_bound N k s : ~ Rabs (burg_den N k s) < 1 / 1000000 -> Rabs (reflection N k s) <= 1.
Proof.
  intros H. pose proof (den_nonneg N k s) as D. pose proof (num_den_bound N k s) as B.
  rewrite Rabs_right in H by lra. unfold reflection.
  assert (P : 0 < burg_den N k s) by lra.
  assert (I : 0 < / burg_den N k s) by (apply Rinv_0_lt_compat; exact P).
  assert (E : burg_den N k s * / burg_den N k s = 1) by (apply Rinv_r; lra).
  unfold Rdiv. apply Rabs_le.
  assert (B1 := Rmult_le_compat_r (/ burg_den N k s) _ _ ltac:(lra) (proj1 B)).
  assert (B2 := Rmult_le_compat_r (/ burg_den N k s) _ _ ltac:(lra) (proj2 B)). lra.
Qed.
Lemma mean_square_nonneg x N : 0 <= mean_square x N.
Proof.
  unfold mean_square, Rdiv. destruct N as [|N]; [simpl; rewrite Rinv_0; lra|].
  apply Rmult_le_pos; [apply sum_from_nonneg; intros; apply pow2_ge_0|]. left. apply Rinv_0_lt_compat, lt_0_INR. lia.
Qed.
Lemma burg_step_msd N k s : 0 <= b_msd s -> 0 <= b_msd (burg_step N k s) <= b_msd s.
Proof.
  intros H. unfold burg_step. destruct (b_dead s); [lra|]. destruct (Rlt_dec _ _) as [L|L]; [simpl; lra|].
  cbv zeta. cbn [b_msd]. pose proof (reflection_bound N k s L) as B. set (r := reflection N k s) in *.
  assert (Q : 0 <= r ^ 2 <= 1).
  { split; [apply pow2_ge_0|]. rewrite <- (pow2_abs r). pose proof (Rabs_pos r). simpl. nra. }
  split; nra.
Qed.
Lemma burg_msd_nonneg x N M : 0 <= b_msd (burg x N M).
Proof. induction M as [|M IH]; [apply mean_square_nonneg|]. simpl. apply burg_step_msd, IH. Qed.
Lemma burg_msd_mono x N M : b_msd (burg x N (S M)) <= b_msd (burg x N M).
Proof. simpl. apply burg_step_msd, burg_msd_nonneg. Qed.
Lemma burg_msd_mono_le x N M M' : (M <= M')%nat -> b_msd (burg x N M') <= b_msd (burg x N M).
Proof. induction 1 as [|M' _ IH]; [lra|]. pose proof (burg_msd_mono x N M'). lra. Qed.

(* ---------- error filter on the unit circle ---------- *)
Lemma csum_from_ext f g : forall n a, (forall j, (a <= j < a + n)%nat -> f j = g j) -> csum_from a n f = csum_from a n g.
Proof.
  induction n as [|n IH]; intros a H; simpl; [reflexivity|]. rewrite H by lia. rewrite (IH (S a)); [reflexivity|].
  intros j Hj. apply H. lia.
Qed.
Lemma csum_from_S f : forall n a, csum_from a (S n) f = Cplus (csum_from a n f) (f (a + n)%nat).
Proof.
  induction n as [|n IH]; intros a; [simpl; rewrite Nat.add_0_r; ring|].
  change (csum_from a (S (S n)) f) with (Cplus (f a) (csum_from (S a) (S n) f)). rewrite IH. simpl.
  replace (S (a + n)) with (a + S n)%nat by lia. ring.
Qed.
Lemma csum_from_minus f g : forall n a, csum_from a n (fun j => Cminus (f j) (g j)) = Cminus (csum_from a n f) (csum_from a n g).
Proof. induction n as [|n IH]; intros a; simpl; [ring|]. rewrite IH. ring. Qed.
Lemma csum_from_scal c f : forall n a, csum_from a n (fun j => Cmult c (f j)) = Cmult c (csum_from a n f).
Proof. induction n as [|n IH]; intros a; simpl; [ring|]. rewrite IH. ring. Qed.
(** reversal: sum_{i=1}^{n} f(i) = sum_{i=1}^{n} f(n+1-i) *)
Lemma csum_from_shift f : forall n a, csum_from (S a) n f = csum_from a n (fun i => f (S i)).
Proof. induction n as [|n IH]; intros a; simpl; [reflexivity|]. rewrite IH. reflexivity. Qed.
Lemma csum_from_rev f : forall n, csum_from 1 n f = csum_from 1 n (fun i => f (S n - i)%nat).
Proof.
  induction n as [|n IH]; [reflexivity|]. rewrite csum_from_S, IH.
  change (csum_from 1 (S n) (fun i => f (S (S n) - i)%nat)) with (Cplus (f (S (S n) - 1)%nat) (csum_from 2 n (fun i => f (S (S n) - i)%nat))).
  rewrite (csum_from_shift (fun i => f (S (S n) - i)%nat) n 1). replace (S (S n) - 1)%nat with (1 + n)%nat by lia. apply Cplus_comm.
Qed.
Lemma Cconj_plus a b : Cconj (Cplus a b) = Cplus (Cconj a) (Cconj b).
Proof. unfold Cconj, Cplus; simpl. f_equal. ring. Qed.
Lemma Cconj_minus a b : Cconj (Cminus a b) = Cminus (Cconj a) (Cconj b).
Proof. unfold Cconj, Cminus, Cplus, Copp; simpl. f_equal. ring. Qed.
Lemma Cconj_mult a b : Cconj (Cmult a b) = Cmult (Cconj a) (Cconj b).
Proof. unfold Cconj, Cmult; simpl. f_equal; ring. Qed.
Lemma Cconj_R r : Cconj (RtoC r) = RtoC r.
Proof. unfold Cconj, RtoC; simpl. f_equal. ring. Qed.
Lemma Cconj_csum f : forall n a, Cconj (csum_from a n f) = csum_from a n (fun i => Cconj (f i)).
Proof. induction n as [|n IH]; intros a; simpl; [apply Cconj_R|]. rewrite Cconj_plus, IH. reflexivity. Qed.
Lemma Cpow_add z m n : Cpow z (m + n) = Cmult (Cpow z m) (Cpow z n).
Proof. induction m as [|m IH]; simpl; [ring|]. rewrite IH. ring. Qed.
Lemma Cpow_conj_unit z n : Cmult z (Cconj z) = RtoC 1 -> Cmult (Cpow z n) (Cconj (Cpow z n)) = RtoC 1.
Proof.
  intros H. induction n as [|n IH]; simpl; [rewrite Cconj_R; ring|]. rewrite Cconj_mult.
  transitivity (Cmult (Cmult z (Cconj z)) (Cmult (Cpow z n) (Cconj (Cpow z n)))); [ring|]. rewrite H, IH. ring.
Qed.
Lemma Cpow_sub z k i : Cmult z (Cconj z) = RtoC 1 -> (i <= k)%nat -> Cpow z (k - i) = Cmult (Cpow z k) (Cconj (Cpow z i)).
Proof.
  intros H Hi. replace k with ((k - i) + i)%nat at 2 by lia. rewrite Cpow_add.
  transitivity (Cmult (Cpow z (k - i)) (Cmult (Cpow z i) (Cconj (Cpow z i)))); [rewrite Cpow_conj_unit by assumption; ring|ring].
Qed.
Lemma Cmod_conj z : Cmod (Cconj z) = Cmod z.
Proof. unfold Cmod, Cconj; simpl. f_equal. ring. Qed.
Lemma Cmod_sqr z : Re (Cmult z (Cconj z)) = Cmod z ^ 2.
Proof.
  unfold Cmod. rewrite pow2_sqrt.
  - unfold Re, Cmult, Cconj; simpl. ring.
  - apply Rplus_le_le_0_compat; apply pow2_ge_0.
Qed.
Lemma unit_mod z : Cmod z = 1 -> Cmult z (Cconj z) = RtoC 1.
Proof.
  intros H. pose proof (Cmod_sqr z) as E. rewrite H in E. destruct z as [a b]. unfold Re, Cmult, Cconj, RtoC in *; simpl in *.
  f_equal; [rewrite E; ring|ring].
Qed.
(** Levinson recursion on the unit circle *)
Lemma error_filter_step k r a z : (1 <= k)%nat -> Cmod z = 1 ->
  error_filter (new_a k r a) k z =
  Cminus (error_filter a (k - 1) z) (Cmult (RtoC r) (Cmult (Cpow z k) (Cconj (error_filter a (k - 1) z)))).
Proof.
  intros Hk Hz. apply unit_mod in Hz. destruct k as [|k]; [lia|]. replace (S k - 1)%nat with k by lia.
  unfold error_filter. rewrite csum_from_S. replace (1 + k)%nat with (S k) by lia. rewrite new_a_same.
  rewrite (csum_from_ext _ (fun i => Cminus (Cmult (RtoC (a i)) (Cpow z i)) (Cmult (RtoC r) (Cmult (RtoC (a (S k - i)%nat)) (Cpow z i)))) k 1).
  2:{ intros j Hj. rewrite new_a_lt by lia. rewrite RtoC_minus, RtoC_mult. ring. }
  rewrite csum_from_minus, csum_from_scal.
  rewrite (csum_from_rev (fun i => Cmult (RtoC (a (S k - i)%nat)) (Cpow z i)) k).
  rewrite (csum_from_ext (fun i => Cmult (RtoC (a (S k - (S k - i))%nat)) (Cpow z (S k - i)))
     (fun i => Cmult (Cpow z (S k)) (Cconj (Cmult (RtoC (a i)) (Cpow z i)))) k 1).
  2:{ intros j Hj. replace (S k - (S k - j))%nat with j by lia. rewrite Cpow_sub by (assumption || lia).
      rewrite Cconj_mult, Cconj_R. ring. }
  rewrite csum_from_scal. rewrite Cconj_minus, Cconj_R, Cconj_csum. ring.
Qed.
Lemma error_filter_ext a b M z : (forall i, (1 <= i <= M)%nat -> a i = b i) -> error_filter a M z = error_filter b M z.
Proof. intros H. unfold error_filter. f_equal. apply csum_from_ext. intros j Hj. rewrite H by lia. reflexivity. Qed.
Lemma Cpow_mod z n : Cmod z = 1 -> Cmod (Cpow z n) = 1.
Proof. intros H. induction n as [|n IH]; simpl; [apply Cmod_1|]. rewrite Cmod_mult, H, IH. ring. Qed.

Definition strict (x : nat -> R) (N M : nat) : Prop :=
  forall k, (1 <= k <= M)%nat -> Rabs (reflection N k (burg x N (k - 1))) < 1.
Lemma stable x N M z : Cmod z = 1 -> b_dead (burg x N M) = false -> strict x N M ->
  0 < Cmod (error_filter (b_a (burg x N M)) M z).
Proof.
  intros Hz. induction M as [|M IH]; intros D S.
  - unfold error_filter; simpl. replace (Cminus (RtoC 1) (RtoC 0)) with (RtoC 1) by ring. rewrite Cmod_1. lra.
  - simpl burg in *. assert (D' : b_dead (burg x N M) = false).
    { unfold burg_step in D. destruct (b_dead (burg x N M)) eqn:Ed; [congruence|reflexivity]. }
    assert (S' : strict x N M) by (intros k Hk; apply S; lia).
    specialize (IH D' S'). assert (Sr := S (Datatypes.S M) ltac:(lia)). replace (Datatypes.S M - 1)%nat with M in Sr by lia.
    unfold burg_step in *. rewrite D' in *. destruct (Rlt_dec _ _) as [L|L]; [discriminate|]. cbn [b_a].
    set (r := reflection N (Datatypes.S M) (burg x N M)) in *. fold (new_a (Datatypes.S M) r (b_a (burg x N M))).
    rewrite error_filter_step by (assumption || lia). replace (Datatypes.S M - 1)%nat with M by lia.
    set (A := error_filter (b_a (burg x N M)) M z) in *.
    set (T := Cmult (RtoC r) (Cmult (Cpow z (Datatypes.S M)) (Cconj A))).
    assert (ET : Cmod T = Rabs r * Cmod A).
    { unfold T. rewrite !Cmod_mult, Cmod_R, Cpow_mod, Cmod_conj by assumption. ring. }
    assert (Tr := Cmod_triangle (Cminus A T) T). replace (Cplus (Cminus A T) T) with A in Tr by ring.
    rewrite ET in Tr. nra.
Qed.

Lemma FrequencyEvaluation_ok delta coef M msd a : (forall i, (1 <= i <= M)%nat -> rd coef i = Some (a i)) ->
  FrequencyEvaluation delta coef M msd = Some (spectral_density a M msd (cexp (Cbuild 0 delta))).
Proof.
  intros H. unfold FrequencyEvaluation. set (z := cexp (Cbuild 0 delta)).
  destruct (for_rule (fun j s => s = error_filter a (j - 1) z)
    (fun i s => c <- rd coef i; Some (Cminus s (Cmult (RtoC c) (Cpow z i)))) M 1 (RtoC 1)) as [s [E I]].
  - unfold error_filter; simpl. ring.
  - intros i s Hi ->. rewrite H by lia. cbn [bind]. eexists. split; [reflexivity|].
    replace (S i - 1)%nat with (S (i - 1)) by lia. unfold error_filter. rewrite csum_from_S. replace (1 + (i - 1))%nat with i by lia. ring.
  - rewrite E. cbn [bind]. replace (1 + M - 1)%nat with M in I by lia. subst s. unfold spectral_density. rewrite Cmod_sqr. reflexivity.
Qed.
Lemma unit_phase delta : Cmod (cexp (Cbuild 0 delta)) = 1.
Proof.
  unfold cexp, Cbuild, Cmod; simpl. rewrite exp_0. replace (_ + _) with 1; [apply sqrt_1|].
  pose proof (sin2_cos2 delta) as H. unfold Rsqr in H. lra.
Qed.
Lemma spectral_density_nonneg a M msd z : 0 <= msd -> 0 <= spectral_density a M msd z.
Proof.
  intros H. unfold spectral_density, Rdiv. apply Rmult_le_pos; [assumption|].
  destruct (Req_dec (Cmod (error_filter a M z)) 0) as [->|N0].
  - rewrite pow_ne_zero by lia. rewrite Rinv_0. lra.
  - left. apply Rinv_0_lt_compat. pose proof (Cmod_ge_0 (error_filter a M z)); apply pow_lt; lra.
Qed.

(** a non-zero discrepancy means every reflection coefficient was strictly inside (-1,1) *)
Lemma msd_nonzero_strict x N M : b_msd (burg x N M) <> 0 -> b_dead (burg x N M) = false /\ strict x N M.
Proof.
  induction M as [|M IH].
  - intros _. split; [reflexivity|]. intros k Hk. lia.
  - cbn [burg]. unfold burg_step. destruct (b_dead (burg x N M)) eqn:D.
    + intros H. destruct (IH H) as [H1 _]. congruence.
    + destruct (Rlt_dec _ _) as [L|L]; [intros H; exfalso; apply H; reflexivity|].
      cbv zeta. cbn [b_msd b_dead]. intros H.
      assert (Hm : b_msd (burg x N M) <> 0) by (intros E; apply H; rewrite E; ring).
      destruct (IH Hm) as [_ S]. split; [reflexivity|]. intros k Hk.
      destruct (Nat.eq_dec k (Datatypes.S M)) as [->|Ne]; [|apply S; lia].
      replace (Datatypes.S M - 1)%nat with M by lia.
      pose proof (reflection_bound N (Datatypes.S M) (burg x N M) L) as B. set (r := reflection N (Datatypes.S M) (burg x N M)) in *.
      destruct (Req_dec (Rabs r) 1) as [E|NE]; [|lra]. exfalso. apply H.
      rewrite <- (pow2_abs r), E. ring.
Qed.

Lemma dead_false_cases x N M : b_dead (burg x N M) = true -> b_msd (burg x N M) = 0.
Proof.
  induction M as [|M IH]; [discriminate|]. cbn [burg]. unfold burg_step. destruct (b_dead (burg x N M)) eqn:D; [intros _; apply IH; reflexivity|].
  destruct (Rlt_dec _ _) as [L|L]; [reflexivity|discriminate].
Qed.

Lemma half_spectrum x data N M w : (2 <= N)%nat -> (forall j, (1 <= j <= N)%nat -> rd data j = Some (x j)) ->
  exists v c, GetCoefficients data N M = Some (v, c) /\ v = b_msd (burg x N M) /\
  (v <> 0 -> FrequencyEvaluation w c M v = Some (spectral_density (b_a (burg x N M)) M v (cexp (Cbuild 0 w))) /\
             0 < Cmod (error_filter (b_a (burg x N M)) M (cexp (Cbuild 0 w)))).
Proof.
  intros HN H. destruct (GetCoefficients_ok x data N M HN H) as [v [c [E [Ev [Sc [Hc Hd]]]]]]. exists v, c.
  split; [exact E|]. split; [exact Ev|]. intros Hv. assert (Hv' := Hv). rewrite Ev in Hv'. destruct (msd_nonzero_strict _ _ _ Hv') as [D S].
  split; [apply FrequencyEvaluation_ok, Hc, D|]. apply stable; [apply unit_phase|assumption|assumption].
Qed.
Notation half := burg_spectrum.
Lemma mem_frequency_ok x y dr di N M dt freq : (2 <= N)%nat ->
  (forall j, (1 <= j <= N)%nat -> rd dr j = Some (x j)) -> (forall j, (1 <= j <= N)%nat -> rd di j = Some (y j)) ->
  mem_frequency dr di N M dt freq =
  Some ((half x N M (cexp (Cbuild 0 (freq * 2 * PI * dt))) + half y N M (cexp (Cbuild 0 (freq * 2 * PI * dt)))) * dt).
Proof.
  intros HN H1 H2. unfold mem_frequency.
  destruct (half_spectrum x dr N M (freq * 2 * PI * dt) HN H1) as [v [c [E [Ev F]]]].
  destruct (half_spectrum y di N M (freq * 2 * PI * dt) HN H2) as [v' [c' [E' [Ev' F']]]].
  rewrite E, E'. cbn [bind fst snd]. unfold half. cbv zeta. rewrite <- Ev, <- Ev'.
  destruct (Req_EM_T v 0) as [Z|Z]; destruct (Req_EM_T v' 0) as [Z'|Z']; cbn [bind];
    rewrite ?(proj1 (F Z)), ?(proj1 (F' Z')); reflexivity.
Qed.
Lemma half_nonneg x N M z : 0 <= half x N M z.
Proof.
  unfold half. cbv zeta. destruct (Req_EM_T _ 0); [lra|]. apply spectral_density_nonneg, burg_msd_nonneg.
Qed.
