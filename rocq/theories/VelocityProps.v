(** C91: velocities computed from the coordinates. *)
From Verif Require Import VelocitySpec VelocityProofs DisplacementsProofs DynamicsProofs.
From Coquelicot Require Import Coquelicot.
From Coq Require Import Reals Lra Lia List ZArith.
Import ListNotations.
Open Scope R_scope.

(** In any dimension, for any cell: while the atom's true path stays within half a cell of its reference position, the velocities are the
    finite differences of the true path, whatever periodic images the trajectory file contains. *)
Theorem C91_boundary_crossings_invisible :
  forall n cell p path traj times k L, (2 <= n)%nat -> Determinant n (pymatrix_to_c_array_real n cell) <> 0 -> (k < n)%nat ->
  length traj = S (S L) -> (forall s, (s < S (S L))%nat -> near n cell p (path s)) ->
  (forall s, (s < S (S L))%nat -> image n cell (path s) (nth s traj (fun _ => 0))) ->
  let v := computed_velocity n cell p traj times k in
  let dt := average_time_step times in
  length v = S (S L) /\
  nth 0 v 0 = (path 1%nat k - path 0%nat k) / dt /\
  nth (S L) v 0 = (path (S L) k - path L k) / dt /\
  (forall s, (s < L)%nat -> nth (S s) v 0 = (path (S (S s)) k - path s k) / (2 * dt)).
Proof. exact wrapped. Qed.
Print Assumptions C91_boundary_crossings_invisible.

(** With evenly spaced time stamps (spacing with at most 8 decimals, the precision kept by the program) the inner velocities are second order
    accurate: the error is at most M h^2 / 6 for a path with third derivative bounded by M. *)
Theorem C91_second_order_accurate :
  forall n cell p (q q1 q2 q3 : nat -> R -> R) traj t0 z k L s M,
  let h := IZR z / 100000000 in let t := t0 + INR (S s) * h in
  (2 <= n)%nat -> Determinant n (pymatrix_to_c_array_real n cell) <> 0 -> (k < n)%nat -> (0 < z)%Z -> (s < L)%nat -> length traj = S (S L) ->
  (forall i, (i < S (S L))%nat -> near n cell p (fun k => q k (t0 + INR i * h))) ->
  (forall i, (i < S (S L))%nat -> image n cell (fun k => q k (t0 + INR i * h)) (nth i traj (fun _ => 0))) ->
  (forall x, t - h <= x <= t + h ->
     is_derive (q k) x (q1 k x) /\ is_derive (q1 k) x (q2 k x) /\ is_derive (q2 k) x (q3 k x) /\ Rabs (q3 k x) <= M) ->
  Rabs (nth (S s) (computed_velocity n cell p traj (stamps t0 h (S (S L))) k) 0 - q1 k t) <= M * h ^ 2 / 6.
Proof.
  intros n cell p q q1 q2 q3 traj t0 z k L s M h t Hn D Hk Hz Hs HL HN HI HD.
  assert (Hh : 0 < h) by (unfold h; apply IZR_lt in Hz; apply Rmult_lt_0_compat; lra).
  destruct (wrapped n cell p (fun i k => q k (t0 + INR i * h)) traj (stamps t0 h (S (S L))) k L Hn D Hk HL HN HI) as [_ [_ [_ W]]].
  rewrite (W s Hs). rewrite (stamps_average t0 z L : average_time_step (stamps t0 h (S (S L))) = h).
  replace (t0 + INR (S (S s)) * h) with (t + h) by (unfold t; rewrite !S_INR; ring).
  replace (t0 + INR s * h) with (t - h) by (unfold t; rewrite !S_INR; ring).
  apply (central_difference (q k) (q1 k) (q2 k) (q3 k)); assumption.
Qed.
Print Assumptions C91_second_order_accurate.

(** Uniform motion is exact at every step, ends included. *)
Theorem C91_uniform_motion_exact :
  forall n cell p x0 (v : nat -> R) traj t0 z k L,
  let h := IZR z / 100000000 in
  (2 <= n)%nat -> Determinant n (pymatrix_to_c_array_real n cell) <> 0 -> (k < n)%nat -> (0 < z)%Z -> length traj = S (S L) ->
  (forall i, (i < S (S L))%nat -> near n cell p (fun k => x0 k + INR i * h * v k)) ->
  (forall i, (i < S (S L))%nat -> image n cell (fun k => x0 k + INR i * h * v k) (nth i traj (fun _ => 0))) ->
  computed_velocity n cell p traj (stamps t0 h (S (S L))) k = repeat (v k) (S (S L)).
Proof.
  intros n cell p x0 v traj t0 z k L h Hn D Hk Hz HL HN HI.
  assert (Hh : 0 < h) by (unfold h; apply IZR_lt in Hz; apply Rmult_lt_0_compat; lra).
  destruct (wrapped n cell p (fun i k => x0 k + INR i * h * v k) traj (stamps t0 h (S (S L))) k L Hn D Hk HL HN HI) as [W1 [W2 [W3 W4]]].
  rewrite (stamps_average t0 z L : average_time_step (stamps t0 h (S (S L))) = h) in W2, W3, W4.
  apply (nth_ext _ _ 0 0); [rewrite repeat_length; exact W1|].
  rewrite W1. intros s Hs. rewrite (nth_indep (repeat (v k) (S (S L))) 0 (v k)) by (rewrite repeat_length; exact Hs). rewrite nth_repeat.
  destruct s as [|s].
  - rewrite W2. cbn [INR]. field. lra.
  - destruct (Nat.eq_dec s L) as [->|N].
    + rewrite W3. rewrite S_INR. field. lra.
    + rewrite W4 by lia. rewrite !S_INR. field. lra.
Qed.
Print Assumptions C91_uniform_motion_exact.

(** Refuted without the half-cell condition: for every drifting atom (diffusion, liquids, an interstitial) in every cell there is a number of
    steps from which on some step gets a wrong velocity. *)
Theorem C91_drift_refuted :
  forall n cell p x0 v z k, (2 <= n)%nat -> Determinant n (pymatrix_to_c_array_real n cell) <> 0 -> (0 < z)%Z -> (k < n)%nat -> v k <> 0 ->
  exists N, forall L traj t0, (N <= L)%nat -> length traj = L ->
  let h := IZR z / 100000000 in
  (forall s, (s < L)%nat -> image n cell (fun k => x0 k + INR s * h * v k) (nth s traj (fun _ => 0))) ->
  exists s, (s < L)%nat /\ nth s (computed_velocity n cell p traj (stamps t0 h L) k) 0 <> v k.
Proof. exact drift. Qed.
Print Assumptions C91_drift_refuted.

(** Refuted for uneven time stamps: only their average spacing is used, so the first velocity of a uniformly moving atom is wrong whenever the
    first spacing is not the average one. *)
Theorem C91_uneven_time_stamps_refuted :
  forall n cell p x0 v traj times k L, (2 <= n)%nat -> Determinant n (pymatrix_to_c_array_real n cell) <> 0 -> (k < n)%nat ->
  length traj = S (S L) -> length times = S (S L) ->
  (forall i, (i < S (S L))%nat -> near n cell p (fun k => x0 k + nth i times 0 * v k)) ->
  (forall i, (i < S (S L))%nat -> image n cell (fun k => x0 k + nth i times 0 * v k) (nth i traj (fun _ => 0))) ->
  v k <> 0 -> average_time_step times <> 0 -> nth 1 times 0 - nth 0 times 0 <> average_time_step times ->
  nth 0 (computed_velocity n cell p traj times k) 0 <> v k.
Proof.
  intros n cell p x0 v traj times k L Hn D Hk HL HT HN HI Hv Ha Hd E.
  destruct (wrapped n cell p (fun i k => x0 k + nth i times 0 * v k) traj times k L Hn D Hk HL HN HI) as [_ [W2 _]].
  cbv beta zeta in W2. rewrite W2 in E. apply Hd.
  set (dt := average_time_step times) in *. apply (Rmult_eq_compat_r dt) in E. unfold Rdiv in E. rewrite Rmult_assoc, Rinv_l, Rmult_1_r in E by exact Ha.
  apply Rmult_eq_reg_r with (v k); [|exact Hv]. lra.
Qed.
Print Assumptions C91_uneven_time_stamps_refuted.

(** a concrete case: a cubic cell of edge 4, an atom moving with velocity (1, 0, 1/2) sampled every 0.5 for 4 steps, whose second position was
    written one cell further *)
Example C91_nonvacuous :
  let cell := buffer (mdiag 4 4 4) in let p := fun _ : nat => 0 in
  let v := vget (V3 1 0 (1/2)) in let h := IZR 50000000 / 100000000 in
  let path := fun i k => 0 + INR i * h * v k in
  let traj := [path 0%nat; (fun k => path 1%nat k + lattice_combination 3 cell (fun j => IZR (if Nat.eqb j 0 then 1 else 0)) k); path 2%nat; path 3%nat] in
  Determinant 3 (pymatrix_to_c_array_real 3 cell) <> 0 /\ length traj = 4%nat /\
  (forall i, (i < 4)%nat -> near 3 cell p (path i)) /\ (forall i, (i < 4)%nat -> image 3 cell (path i) (nth i traj (fun _ => 0))) /\
  computed_velocity 3 cell p traj (stamps 0 h 4) 2 = [1/2; 1/2; 1/2; 1/2].
Proof.
  intros cell p v h path traj.
  assert (D : Determinant 3 (pymatrix_to_c_array_real 3 cell) <> 0).
  { change (Determinant 3 (Cc 3 (buffer (mdiag 4 4 4))) <> 0). rewrite Determinant3_buffer. unfold mdet, mdiag; cbn. lra. }
  assert (N : forall i, (i < 4)%nat -> near 3 cell p (path i)).
  { intros i Hi. exists (fun j => INR i * h * v j / 4). split.
    - intros k Hk. unfold path, p, lattice_combination, cell, buffer, mget. destruct k as [|[|[|k]]]; try lia; cbn; lra.
    - intros j Hj. assert (0 <= INR i <= 3) by (split; [apply pos_INR|replace 3 with (INR 3) by (cbn; ring); apply le_INR; lia]).
      unfold h, v. destruct j as [|[|[|j]]]; try lia; cbn; lra. }
  assert (I : forall i, (i < 4)%nat -> image 3 cell (path i) (nth i traj (fun _ => 0))).
  { intros i Hi. destruct i as [|[|[|[|i]]]]; try lia.
    - exists (fun _ => 0%Z). intros k Hk. unfold lattice_combination. cbn [traj nth rsum]. ring.
    - exists (fun j => if Nat.eqb j 0 then 1%Z else 0%Z). intros k Hk. reflexivity.
    - exists (fun _ => 0%Z). intros k Hk. unfold lattice_combination. cbn [traj nth rsum]. ring.
    - exists (fun _ => 0%Z). intros k Hk. unfold lattice_combination. cbn [traj nth rsum]. ring. }
  repeat split; try assumption.
  exact (C91_uniform_motion_exact 3 cell p (fun _ => 0) v traj 0 50000000 2 2 ltac:(lia) D ltac:(lia) ltac:(lia) eq_refl N I).
Qed.
