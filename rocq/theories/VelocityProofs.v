From Verif Require Import VelocitySpec DisplacementsProofs DynamicsProofs.
From Coquelicot Require Import Coquelicot.
From Coq Require Import Reals Lra Lia List ZArith Classical.
Import ListNotations.
Open Scope R_scope.

(** * np.gradient, element by element *)
Lemma grad_inner_spec : forall m f h, length f = S (S m) ->
  length (grad_inner f h) = S m /\
  (forall s, (s < m)%nat -> nth s (grad_inner f h) 0 = (nth (S (S s)) f 0 - nth s f 0) / (2 * h)) /\
  nth m (grad_inner f h) 0 = (nth (S m) f 0 - nth m f 0) / h.
Proof.
  induction m as [|m IH]; intros f h L.
  - destruct f as [|a [|b [|c f]]]; try discriminate. cbn. repeat split. intros s Hs; lia.
  - destruct f as [|a [|b [|c f]]]; try discriminate.
    destruct (IH (b :: c :: f) h) as [I1 [I2 I3]]; [cbn in *; lia|].
    change (grad_inner (a :: b :: c :: f) h) with ((c - a) / (2 * h) :: grad_inner (b :: c :: f) h).
    repeat split.
    + cbn [length]. rewrite I1. reflexivity.
    + intros [|s] Hs; [reflexivity|]. cbn [nth]. rewrite I2 by lia. reflexivity.
    + cbn [nth]. rewrite I3. reflexivity.
Qed.
Lemma np_gradient_spec f h L : length f = S (S L) ->
  length (np_gradient f h) = S (S L) /\
  nth 0 (np_gradient f h) 0 = (nth 1 f 0 - nth 0 f 0) / h /\
  nth (S L) (np_gradient f h) 0 = (nth (S L) f 0 - nth L f 0) / h /\
  (forall s, (s < L)%nat -> nth (S s) (np_gradient f h) 0 = (nth (S (S s)) f 0 - nth s f 0) / (2 * h)).
Proof.
  intros E. destruct (grad_inner_spec L f h E) as [I1 [I2 I3]].
  destruct f as [|a [|b f]]; try discriminate. cbn [np_gradient].
  repeat split; [cbn [length]; rewrite I1; reflexivity| exact I3 | intros s Hs; apply I2; exact Hs].
Qed.

(** * displacements of an atom that stays near its reference position *)
Lemma displacement_ext n cell p x y k : (forall k, (k < n)%nat -> x k = y k) -> (k < n)%nat ->
  atomic_displacement n cell p x k = atomic_displacement n cell p y k.
Proof.
  intros H Hk. rewrite !displacement_eq. rewrite H by assumption. f_equal.
  unfold lattice_combination. apply rsum_ext'. intros j Hj. f_equal. f_equal. f_equal. apply frac_ext. intros i Hi. rewrite H by assumption. reflexivity.
Qed.
Lemma displacement_near n cell p x y k : (2 <= n)%nat -> Determinant n (Cc n cell) <> 0 -> near n cell p x -> image n cell x y -> (k < n)%nat ->
  atomic_displacement n cell p y k = x k - p k.
Proof.
  intros Hn D [f [Hf B]] [m Hm] Hk.
  rewrite (displacement_ext n cell p y (fun k => x k + lattice_combination n cell (fun j => IZR (m j)) k)) by assumption.
  rewrite periodic; try assumption.
  - rewrite displacement_eq.
    assert (Z0 : forall j, (j < n)%nat -> cround (frac n cell (fun k => x k - p k) j) = 0%Z).
    { intros j Hj. rewrite (frac_ext n cell _ (lattice_combination n cell f)) by assumption.
      rewrite frac_combination by assumption. specialize (B j Hj). apply cround_nearest. cbn. lra. }
    unfold lattice_combination. rewrite (rsum_ext' n _ (fun _ => 0)); [rewrite rsum_0; ring|].
    intros j Hj. rewrite Z0 by assumption. ring.
  - intros g Hg j Hj [z Hz].
    assert (E : g j = f j).
    { rewrite <- (frac_combination n cell g j Hn D Hj), <- (frac_combination n cell f j Hn D Hj). apply frac_ext.
      intros i Hi. rewrite <- Hg, <- Hf by assumption. reflexivity. }
    rewrite E in Hz. specialize (B j Hj).
    assert (A1 : IZR z < IZR 0) by lra. assert (A2 : IZR (-1) < IZR z) by lra. apply lt_IZR in A1, A2. lia.
Qed.

Lemma wrapped n cell p path traj times k L : (2 <= n)%nat -> Determinant n (Cc n cell) <> 0 -> (k < n)%nat ->
  length traj = S (S L) -> (forall s, (s < S (S L))%nat -> near n cell p (path s)) ->
  (forall s, (s < S (S L))%nat -> image n cell (path s) (nth s traj (fun _ => 0))) ->
  let v := computed_velocity n cell p traj times k in
  let dt := average_time_step times in
  length v = S (S L) /\
  nth 0 v 0 = (path 1%nat k - path 0%nat k) / dt /\
  nth (S L) v 0 = (path (S L) k - path L k) / dt /\
  (forall s, (s < L)%nat -> nth (S s) v 0 = (path (S (S s)) k - path s k) / (2 * dt)).
Proof.
  intros Hn D Hk HL HN HI v dt.
  set (f := map (fun d : nat -> R => d k) (atomic_displacements n cell p traj)).
  assert (Lf : length f = S (S L)) by (unfold f, atomic_displacements; rewrite !map_length; exact HL).
  assert (F : forall s, (s < S (S L))%nat -> nth s f 0 = path s k - p k).
  { intros s Hs. unfold f, atomic_displacements. rewrite map_map.
    rewrite (nth_indep _ 0 ((fun x => atomic_displacement n cell p x k) (fun _ => 0))) by (rewrite map_length, HL; exact Hs).
    rewrite (map_nth (fun x => atomic_displacement n cell p x k)).
    apply displacement_near; auto. }
  destruct (np_gradient_spec f dt L Lf) as [G1 [G2 [G3 G4]]].
  unfold v, computed_velocity. fold f. fold dt.
  repeat split; [exact G1| rewrite G2, !F by lia; f_equal; ring| rewrite G3, !F by lia; f_equal; ring|].
  intros s Hs. rewrite G4, !F by lia. f_equal. ring.
Qed.

(** * uniform sampling *)
Lemma stamps_average t0 z L : average_time_step (stamps t0 (IZR z / 100000000) (S (S L))) = IZR z / 100000000.
Proof.
  set (h := IZR z / 100000000). unfold average_time_step, stamps. rewrite map_length, seq_length.
  rewrite step_sum_tele; [| apply not_0_INR; lia | discriminate].
  replace (last (map (fun s => t0 + INR s * h) (seq 0 (S (S L)))) 0) with (t0 + INR (S L) * h).
  2:{ rewrite seq_S, map_app. cbn [map plus]. rewrite last_last. reflexivity. }
  cbn [map seq hd]. replace (INR 0) with 0 by reflexivity.
  replace ((t0 + INR (S L) * h - (t0 + 0 * h)) / INR (S (S L) - 1)) with h.
  - apply round8_exact.
  - replace (S (S L) - 1)%nat with (S L) by lia. field. apply not_0_INR; lia.
Qed.

(** * second order accuracy *)
Lemma grow (g dg : R -> R) C m h : (forall u, 0 <= u <= h -> is_derive g u (dg u)) -> (forall u, 0 <= u <= h -> Rabs (dg u) <= C * u ^ m) -> g 0 = 0 ->
  forall u, 0 <= u <= h -> Rabs (g u) <= C * u ^ (S m) / INR (S m).
Proof.
  intros Hd Hb H0 u Hu.
  assert (W : forall sg, (sg = 1 \/ sg = -1) -> 0 <= C * u ^ (S m) / INR (S m) + sg * g u).
  { intros sg Hs.
    set (w := fun x => C * x ^ (S m) / INR (S m) + sg * g x).
    assert (Dw : forall x, 0 <= x <= h -> is_derive w x (C * x ^ m + sg * dg x)).
    { intros x Hx. unfold w. apply (is_derive_plus (fun x => C * x ^ S m / INR (S m)) (fun x => sg * g x)).
      - replace (C * x ^ m) with (C / INR (S m) * (INR (S m) * 1 * x ^ pred (S m))).
        2:{ cbn [pred]. field. apply not_0_INR; lia. }
        apply is_derive_ext with (fun x => C / INR (S m) * x ^ (S m)); [intros t; match goal with |- ?a = ?b => change (@eq R a b) end; field; apply not_0_INR; lia|].
        apply (is_derive_scal (fun x => x ^ S m)). apply (is_derive_pow (fun x => x)). apply (is_derive_id x).
      - apply (is_derive_scal g). apply Hd; exact Hx. }
    destruct (Rle_lt_or_eq_dec 0 u (proj1 Hu)) as [P|P].
    2:{ subst u. rewrite H0. rewrite pow_i by lia. unfold Rdiv. rewrite Rmult_0_r, Rmult_0_l, Rmult_0_r. lra. }
    destruct (MVT_gen w 0 u (fun x => C * x ^ m + sg * dg x)) as [c [Hc Ec]].
    - intros x Hx. rewrite Rmin_left, Rmax_right in Hx by lra. apply Dw. lra.
    - intros x Hx. rewrite Rmin_left, Rmax_right in Hx by lra. apply continuity_pt_filterlim. apply @ex_derive_continuous. eexists. apply Dw. lra.
    - rewrite Rmin_left, Rmax_right in Hc by lra.
      assert (W0 : w 0 = 0) by (unfold w; rewrite H0, pow_i by lia; unfold Rdiv; ring).
      assert (NN : 0 <= C * c ^ m + sg * dg c).
      { assert (Hc2 : 0 <= c <= h) by lra. specialize (Hb c Hc2). apply Rabs_le_between in Hb. destruct Hs as [->| ->]; lra. }
      assert (0 <= w u) by (rewrite W0 in Ec; assert (0 <= (C * c ^ m + sg * dg c) * (u - 0)) by (apply Rmult_le_pos; lra); lra).
      exact H. }
  pose proof (W 1 (or_introl eq_refl)); pose proof (W (-1) (or_intror eq_refl)). apply Rabs_le. lra.
Qed.

Lemma central_difference (f f1 f2 f3 : R -> R) t h M : 0 < h ->
  (forall x, t - h <= x <= t + h -> is_derive f x (f1 x) /\ is_derive f1 x (f2 x) /\ is_derive f2 x (f3 x) /\ Rabs (f3 x) <= M) ->
  Rabs ((f (t + h) - f (t - h)) / (2 * h) - f1 t) <= M * h ^ 2 / 6.
Proof.
  intros Hh H.
  assert (A : forall (g dg : R -> R) u, (forall x, t - h <= x <= t + h -> is_derive g x (dg x)) -> 0 <= u <= h ->
      is_derive (fun u => g (t + u)) u (dg (t + u)) /\ is_derive (fun u => g (t - u)) u (- dg (t - u))).
  { intros g dg u Hg Hu. split.
    - replace (dg (t + u)) with (1 * dg (t + u)) by ring. apply (is_derive_comp g (fun u => t + u)); [apply Hg; lra|]. auto_derive; [trivial|ring].
    - replace (- dg (t - u)) with (-1 * dg (t - u)) by ring. apply (is_derive_comp g (fun u => t - u)); [apply Hg; lra|]. auto_derive; [trivial|ring]. }
  assert (B2 : forall u, 0 <= u <= h -> Rabs (f2 (t + u) - f2 (t - u)) <= 2 * M * u ^ 1 / INR 1).
  { apply (grow (fun u => f2 (t + u) - f2 (t - u)) (fun u => f3 (t + u) - - f3 (t - u))).
    - intros u Hu. destruct (A f2 f3 u) as [A1 A2]; [intros; apply H; assumption|exact Hu|]. apply (is_derive_minus (fun u => f2 (t + u)) (fun u => f2 (t - u))); assumption.
    - intros u Hu. cbn [pow]. destruct (H (t + u)) as [_ [_ [_ K1]]]; [lra|]. destruct (H (t - u)) as [_ [_ [_ K2]]]; [lra|].
      apply Rabs_le_between in K1, K2. apply Rabs_le. lra.
    - replace (t + 0) with (t - 0) by ring. ring. }
  assert (B1 : forall u, 0 <= u <= h -> Rabs (f1 (t + u) + f1 (t - u) - 2 * f1 t) <= M * 2 * u ^ 2 / INR 2).
  { apply (grow (fun u => f1 (t + u) + f1 (t - u) - 2 * f1 t) (fun u => f2 (t + u) - f2 (t - u)) (M * 2) 1).
    - intros u Hu. destruct (A f1 f2 u) as [A1 A2]; [intros; apply H; assumption|exact Hu|].
      apply is_derive_ext with (fun u => plus (plus (f1 (t + u)) (f1 (t - u))) (- (2 * f1 t))); [intros; match goal with |- ?a = ?b => change (@eq R a b) end; unfold plus; cbn; ring|].
      replace (f2 (t + u) - f2 (t - u)) with (plus (plus (f2 (t + u)) (- f2 (t - u))) zero) by (unfold plus, zero; cbn; ring).
      apply @is_derive_plus; [apply @is_derive_plus; assumption|]. apply @is_derive_const.
    - intros u Hu. specialize (B2 u Hu). cbn [INR] in B2. lra.
    - replace (t + 0) with t by ring. replace (t - 0) with t by ring. ring. }
  assert (B0 : forall u, 0 <= u <= h -> Rabs (f (t + u) - f (t - u) - 2 * f1 t * u) <= M * u ^ 3 / INR 3).
  { apply (grow (fun u => f (t + u) - f (t - u) - 2 * f1 t * u) (fun u => f1 (t + u) + f1 (t - u) - 2 * f1 t) M 2).
    - intros u Hu. destruct (A f f1 u) as [A1 A2]; [intros; apply H; assumption|exact Hu|].
      apply is_derive_ext with (fun u => plus (plus (f (t + u)) (opp (f (t - u)))) (opp (2 * f1 t * u))); [intros; match goal with |- ?a = ?b => change (@eq R a b) end; unfold plus, opp; cbn; ring|].
      replace (f1 (t + u) + f1 (t - u) - 2 * f1 t) with (plus (plus (f1 (t + u)) (opp (- f1 (t - u)))) (opp (2 * f1 t))) by (unfold plus, opp; cbn; ring).
      apply @is_derive_plus; [apply @is_derive_plus; [assumption|apply @is_derive_opp; assumption]|]. apply @is_derive_opp. auto_derive; [trivial|ring].
    - intros u Hu. specialize (B1 u Hu). cbn [INR] in B1. lra.
    - replace (t + 0) with t by ring. replace (t - 0) with t by ring. ring. }
  specialize (B0 h (conj (Rlt_le _ _ Hh) (Rle_refl h))).
  replace ((f (t + h) - f (t - h)) / (2 * h) - f1 t) with ((f (t + h) - f (t - h) - 2 * f1 t * h) / (2 * h)) by (field; lra).
  unfold Rdiv. rewrite Rabs_mult, (Rabs_right (/ (2 * h))) by (apply Rle_ge, Rlt_le, Rinv_0_lt_compat; lra).
  apply Rmult_le_reg_r with (2 * h); [lra|]. rewrite Rmult_assoc, Rinv_l, Rmult_1_r by lra.
  eapply Rle_trans; [exact B0|]. cbn [INR]. apply Req_le. field.
Qed.

(** * bounded displacements cannot show a drift *)
Lemma displacement_bounded n cell p x k : (2 <= n)%nat -> Determinant n (Cc n cell) <> 0 -> (k < n)%nat ->
  Rabs (atomic_displacement n cell p x k) <= rsum n (fun j => Rabs (cell (j * n + k)%nat) / 2).
Proof.
  intros Hn D Hk. destruct (minimum_image n cell p x Hn D) as [_ [_ [[f Hf] B]]]. specialize (B f Hf).
  rewrite Hf by assumption. unfold lattice_combination.
  assert (G : forall m, (m <= n)%nat -> Rabs (rsum m (fun j => f j * cell (j * n + k)%nat)) <= rsum m (fun j => Rabs (cell (j * n + k)%nat) / 2)).
  { induction m as [|m IH]; intros Hm; cbn [rsum]; [rewrite Rabs_R0; lra|].
    eapply Rle_trans; [apply Rabs_triang|]. apply Rplus_le_compat; [apply IH; lia|].
    rewrite Rabs_mult. assert (Rabs (f m) <= 1/2) by (apply Rabs_le; specialize (B m ltac:(lia)); lra).
    pose proof (Rabs_pos (cell (m * n + k)%nat)). nra. }
  apply G. lia.
Qed.
Lemma drift n cell p x0 v z k : (2 <= n)%nat -> Determinant n (Cc n cell) <> 0 -> (0 < z)%Z -> (k < n)%nat -> v k <> 0 ->
  exists N, forall L traj t0, (N <= L)%nat -> length traj = L ->
  let h := IZR z / 100000000 in
  (forall s, (s < L)%nat -> image n cell (fun k => x0 k + INR s * h * v k) (nth s traj (fun _ => 0))) ->
  exists s, (s < L)%nat /\ nth s (computed_velocity n cell p traj (stamps t0 h L) k) 0 <> v k.
Proof.
  intros Hn D Hz Hk Hv. set (h := IZR z / 100000000).
  assert (Hh : 0 < h) by (unfold h; apply IZR_lt in Hz; apply Rmult_lt_0_compat; lra).
  set (B := rsum n (fun j => Rabs (cell (j * n + k)%nat) / 2)).
  assert (P : 0 < 2 * h * Rabs (v k)) by (apply Rmult_lt_0_compat; [lra|apply Rabs_pos_lt; exact Hv]).
  assert (exists N, 2 * B < INR N * (2 * h * Rabs (v k))) as [N HN].
  { set (Q := 2 * B / (2 * h * Rabs (v k))). assert (HN : Q < INR (Z.to_nat (Z.max 0 (up Q)))).
    { rewrite INR_IZR_INZ, Z2Nat.id by lia. destruct (archimed Q) as [A _]. eapply Rlt_le_trans; [exact A|]. apply IZR_le. lia. }
    exists (Z.to_nat (Z.max 0 (up Q))). unfold Q in HN at 1.
    apply Rmult_lt_compat_r with (r := 2 * h * Rabs (v k)) in HN; [|exact P]. unfold Rdiv in HN. rewrite Rmult_assoc, Rinv_l in HN by lra. lra. }
  exists (2 * N + 3)%nat. intros L traj t0 HL LT h' _. fold h in h'. subst h'.
  destruct L as [|[|L]]; try lia.
  set (f := map (fun d : nat -> R => d k) (atomic_displacements n cell p traj)).
  assert (Lf : length f = S (S L)) by (unfold f, atomic_displacements; rewrite !map_length; exact LT).
  destruct (np_gradient_spec f (average_time_step (stamps t0 h (S (S L)))) L Lf) as [_ [_ [_ G4]]].
  assert (DT : average_time_step (stamps t0 h (S (S L))) = h) by (unfold h; apply stamps_average).
  assert (Bf : forall s, (s < S (S L))%nat -> Rabs (nth s f 0) <= B).
  { intros s Hs. unfold f, atomic_displacements. rewrite map_map.
    rewrite (nth_indep _ 0 ((fun x => atomic_displacement n cell p x k) (fun _ => 0))) by (rewrite map_length, LT; exact Hs).
    rewrite (map_nth (fun x => atomic_displacement n cell p x k)). apply displacement_bounded; assumption. }
  destruct (classic (exists s, (s < S (S L))%nat /\ nth s (computed_velocity n cell p traj (stamps t0 h (S (S L))) k) 0 <> v k)) as [Q|Q]; [exact Q|exfalso].
  assert (E : forall s, (s < S (S L))%nat -> nth s (computed_velocity n cell p traj (stamps t0 h (S (S L))) k) 0 = v k).
  { intros s Hs. apply NNPP. intros X. apply Q. exists s. split; assumption. }
  assert (St : forall i, (2 * i < S (S L))%nat -> nth (2 * i) f 0 = nth 0 f 0 + INR i * (2 * h * v k)).
  { induction i as [|i IH]; intros Hi; [cbn; ring|].
    replace (2 * S i)%nat with (S (S (2 * i))) by lia.
    pose proof (G4 (2 * i)%nat ltac:(lia)) as G.
    assert (EE : nth (S (2 * i)) (np_gradient f (average_time_step (stamps t0 h (S (S L))))) 0 = v k) by (apply E; lia).
    rewrite EE, DT in G. rewrite S_INR. specialize (IH ltac:(lia)).
    assert (nth (S (S (2 * i))) f 0 - nth (2 * i) f 0 = v k * (2 * h)) by (rewrite G; field; lra). lra. }
  pose proof (St N ltac:(lia)) as S1. pose proof (Bf (2 * N)%nat ltac:(lia)) as B1. pose proof (Bf 0%nat ltac:(lia)) as B2.
  assert (Rabs (INR N * (2 * h * v k)) <= 2 * B).
  { replace (INR N * (2 * h * v k)) with (nth (2 * N) f 0 - nth 0 f 0) by lra.
    eapply Rle_trans; [apply Rabs_triang|]. rewrite Rabs_Ropp. lra. }
  rewrite Rabs_mult, (Rabs_right (INR N)) in H by (apply Rle_ge, pos_INR).
  rewrite Rabs_mult, (Rabs_right (2 * h)) in H by lra. lra.
Qed.
