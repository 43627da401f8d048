(** C07, C14: the refutations of DynamicsProps hold for whole classes of inputs, not only for the examples given there. *)
From Verif Require Import Base Rounding SupercellModel DynamicsModel DynamicsProofs.
From Verif Require VelocityProofs HistogramProofs.
From Coq Require Import Lra Lia.
Open Scope R_scope.

Lemma nth_lastn {A} n (l : list A) i d : (n <= length l)%nat -> (i < n)%nat -> nth i (lastn n l) d = nth (length l - n + i) l d.
Proof.
  intros H Hi. unfold lastn. set (k := (length l - n)%nat). clearbody k. clear H Hi. revert l. induction k as [|k IH]; intros l; [reflexivity|].
  destruct l as [|a l]; [rewrite skipn_nil; destruct i; reflexivity|]. cbn [skipn Nat.add nth]. apply IH.
Qed.
Lemma crop_orders (grad : list R -> R -> list R) (x times : list R) h z : (z <=? 0)%Z = false ->
  let run := @drun R R unit R unit (fun x => x) (fun x => x) grad (fun x => x) (fun _ => h) (fun _ => false) (fun _ _ => tt) in
  let vel := @velocity R R unit R unit (fun x => x) (fun x => x) grad (fun _ => h) (fun _ => false) in
  let s0 := new_dynamics (Some x) None None None (Some times) false in
  exists s1 s2, run [GetVelocity; Crop (Some z)] s0 = Some s1 /\ run [Crop (Some z)] s0 = Some s2 /\
  option_map fst (vel s1) = Some (lastn (Z.to_nat z) (grad x h)) /\ option_map fst (vel s2) = Some (lastn (Z.to_nat z) (grad (lastn (Z.to_nat z) x) h)).
Proof.
  intros E1 run vel s0.
  assert (M1 : forall l : list R, map (fun x => x) l = l) by (intros; apply map_id).
  set (n := Z.to_nat z). exists (MkDyn (Some (lastn n x)) None None (Some (lastn n (grad x h))) None (Some (lastn n times)) None None (Some h) false).
  exists (MkDyn (Some (lastn n x)) None None (Some (lastn n (grad (lastn n x) h))) None (Some (lastn n times)) None None (Some h) false).
  split; [|split; [|split; reflexivity]].
  - unfold run, s0. cbn [drun dstep]. unfold velocity, relative, trajectory, time_step. cbn [new_dynamics d_vel d_rel d_traj d_ts d_time upd_rel option_map snd]. rewrite M1.
    unfold crop. rewrite E1. reflexivity.
  - unfold run, s0. cbn [drun dstep]. unfold crop. rewrite E1. fold n. unfold velocity, relative, trajectory, time_step.
    cbn [new_dynamics d_vel d_rel d_traj d_ts d_time upd_rel upd_traj upd_scaled upd_time d_scaled d_energy]. rewrite M1. reflexivity.
Qed.
(** one coordinate x of one atom, derived velocities (time step h): cropping to the last n steps before and after the velocities are first asked for gives different
    velocities whenever the motion is accelerated at the first kept step *)
Theorem C07_every_accelerated_motion_refuted : forall (x times : list R) h n,
  h <> 0 -> (2 <= n)%nat -> (n < length x)%nat ->
  (let k := (length x - n)%nat in nth (S k) x 0 - nth k x 0 <> nth k x 0 - nth (k - 1) x 0) ->
  let run := @drun R R unit R unit (fun x => x) (fun x => x) np_gradient (fun x => x) (fun _ => h) (fun _ => false) (fun _ _ => tt) in
  let vel := @velocity R R unit R unit (fun x => x) (fun x => x) np_gradient (fun _ => h) (fun _ => false) in
  let s0 := new_dynamics (Some x) None None None (Some times) false in
  exists s1 s2 v1 v2, run [GetVelocity; Crop (Some (Z.of_nat n))] s0 = Some s1 /\ run [Crop (Some (Z.of_nat n))] s0 = Some s2 /\
  option_map fst (vel s1) = Some v1 /\ option_map fst (vel s2) = Some v2 /\ v1 <> v2.
Proof.
  intros x times h n Hh H2 Hn Hacc run vel s0.
  assert (E1 : (Z.of_nat n <=? 0)%Z = false) by (apply Z.leb_gt; lia).
  destruct (crop_orders np_gradient x times h (Z.of_nat n) E1) as (s1 & s2 & R1 & R2 & V1 & V2). rewrite Nat2Z.id in V1, V2.
  exists s1, s2, (lastn n (np_gradient x h)), (lastn n (np_gradient (lastn n x) h)).
  split; [exact R1|]. split; [exact R2|]. split; [exact V1|]. split; [exact V2|].
  - clear R1 R2 V1 V2. intros D. apply (f_equal (fun l => nth 0 l 0)) in D.
    set (k := (length x - n)%nat) in *. cbv zeta in Hacc.
    destruct (VelocityProofs.np_gradient_spec x h (length x - 2) ltac:(lia)) as (L1 & _ & _ & C1).
    assert (Ll : length (lastn n x) = n) by (unfold lastn; rewrite skipn_length; lia).
    destruct (VelocityProofs.np_gradient_spec (lastn n x) h (n - 2) ltac:(lia)) as (L2 & F2 & _ & _).
    cbv beta in D. rewrite nth_lastn in D by lia. rewrite (nth_lastn n (np_gradient (lastn n x) h)) in D by lia.
    rewrite L1 in D. replace (S (S (length x - 2)) - n + 0)%nat with (S (k - 1)) in D by (unfold k; lia).
    rewrite L2 in D. replace (S (S (n - 2)) - n + 0)%nat with 0%nat in D by lia.
    rewrite (C1 (k - 1)%nat) in D by (unfold k; lia). rewrite F2 in D. rewrite !nth_lastn in D by lia.
    fold k in D. replace (k + 1)%nat with (S k) in D by lia. replace (S (S (k - 1))) with (S k) in D by (unfold k; lia). rewrite Nat.add_0_r in D.
    apply Hacc. revert D. generalize (nth (S k) x 0), (nth k x 0), (nth (k - 1) x 0). intros c b a D.
    assert (X : (c - a) / (2 * h) * (2 * h) = (c - b) / h * (2 * h)) by (rewrite D; reflexivity).
    replace ((c - a) / (2 * h) * (2 * h)) with (c - a) in X by (field; exact Hh). replace ((c - b) / h * (2 * h)) with (2 * (c - b)) in X by (field; exact Hh). lra.
Qed.
Print Assumptions C07_every_accelerated_motion_refuted.
Example C07_accelerated_nonvacuous : let x := [0; 1; 4; 9] in let k := (length x - 2)%nat in nth (S k) x 0 - nth k x 0 <> nth k x 0 - nth (k - 1) x 0.
Proof. cbn. lra. Qed.

(** the check sees only the lengths of the lattice vectors: directions (and so the angles, or whether the vectors span space at all) do not matter *)
Theorem C14_directions_ignored_refuted : forall tol A A' a, vnorm (r0 A') = vnorm (r0 A) -> vnorm (r1 A') = vnorm (r1 A) -> vnorm (r2 A') = vnorm (r2 A) ->
  supercell_matrix tol A' a = supercell_matrix tol A a.
Proof. intros tol A A' a E0 E1 E2. unfold supercell_matrix. rewrite E0, E1, E2. reflexivity. Qed.
Print Assumptions C14_directions_ignored_refuted.
(** errors of opposite sign of any size e below one half are accepted, at every tolerance and for every cell *)
Theorem C14_offsetting_errors_refuted : forall tol A a (n0 n1 n2 : Z) e, 0 <= tol -> - (1/2) < e < 1/2 ->
  0 < vnorm (r0 a) -> 0 < vnorm (r1 a) -> 0 < vnorm (r2 a) ->
  vnorm (r0 A) = (IZR n0 + e) * vnorm (r0 a) -> vnorm (r1 A) = (IZR n1 - e) * vnorm (r1 a) -> vnorm (r2 A) = IZR n2 * vnorm (r2 a) ->
  supercell_matrix tol A a = Some (n0, n1, n2).
Proof.
  intros tol A a n0 n1 n2 e Ht He H0 H1 H2 E0 E1 E2. unfold supercell_matrix. rewrite E0, E1, E2.
  replace ((IZR n0 + e) * vnorm (r0 a) / vnorm (r0 a)) with (IZR n0 + e) by (field; lra).
  replace ((IZR n1 - e) * vnorm (r1 a) / vnorm (r1 a)) with (IZR n1 - e) by (field; lra).
  replace (IZR n2 * vnorm (r2 a) / vnorm (r2 a)) with (IZR n2) by (field; lra).
  rewrite (around_nearest (IZR n0 + e) n0), (around_nearest (IZR n1 - e) n1), (around_IZR n2) by lra.
  match goal with |- context [Rabs ?u] => replace u with 0 by (unfold Rdiv; ring) end.
  rewrite Rabs_R0. destruct (Rlt_dec tol 0); [lra|reflexivity].
Qed.
Print Assumptions C14_offsetting_errors_refuted.
(** a supercell whose three vectors are parallel is accepted for the cubic cell *)
Example C14_parallel_nonvacuous : let A := M3 (V3 2 0 0) (V3 2 0 0) (V3 2 0 0) in mdet A = 0 /\ supercell_matrix (1/100) A mid = Some (2%Z, 2%Z, 2%Z).
Proof.
  split; [unfold mdet; cbn; ring|]. apply (C14_offsetting_errors_refuted _ _ _ 2 2 2 0); try lra; unfold mid; cbn [r0 r1 r2];
  rewrite ?vnorm_axis0, ?vnorm_axis1, ?vnorm_axis2 by lra; lra.
Qed.
