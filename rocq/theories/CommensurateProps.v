(** C95: wave vectors commensurate with a supercell. *)
From Verif Require Import CommensurateModel.
From Coq Require Import Reals Lra Lia List ZArith.
Import ListNotations.
Open Scope R_scope.

(** ** Specification *)
Definition integer (x : R) : Prop := exists z, x = IZR z.
(** The primitive vectors are p_i = sum_j P_ji a_j, so the vector with primitive coordinates t has cell coordinates P t; it is a supercell translation when
    each of them is an integer multiple of the multiplicity.  q (in reduced reciprocal coordinates) is commensurate when every supercell translation
    has phase 2 pi times an integer. *)
Definition supercell_translation (P : mat) (n1 n2 n3 : nat) (t : vec) : Prop :=
  exists z1 z2 z3, mulv P t = V3 (INR n1 * IZR z1) (INR n2 * IZR z2) (INR n3 * IZR z3).
Definition commensurate (P : mat) (n1 n2 n3 : nat) (q : vec) : Prop := forall t, supercell_translation P n1 n2 n3 t -> integer (vdot q t).
(** the lattice vectors of the cell are integer combinations of the primitive vectors *)
Definition integer_matrix (m : mat) : Prop :=
  integer (vx (r0 m)) /\ integer (vy (r0 m)) /\ integer (vz (r0 m)) /\ integer (vx (r1 m)) /\ integer (vy (r1 m)) /\ integer (vz (r1 m)) /\
  integer (vx (r2 m)) /\ integer (vy (r2 m)) /\ integer (vz (r2 m)).

(** ** Lemmas *)
Lemma integer_iff x : is_integer x = true <-> integer x.
Proof.
  unfold is_integer, integer. destruct (Req_EM_T _ _) as [E|E]; split; intros H; try discriminate; try reflexivity.
  - exists (rfloor x). lra.
  - destruct H as [z ->]. rewrite rfloor_IZR in E. exfalso. apply E. ring.
Qed.
Lemma integer_add x y : integer x -> integer y -> integer (x + y).
Proof. intros [a ->] [b ->]. exists (a + b)%Z. rewrite plus_IZR. reflexivity. Qed.
Lemma integer_mul x y : integer x -> integer y -> integer (x * y).
Proof. intros [a ->] [b ->]. exists (a * b)%Z. rewrite mult_IZR. reflexivity. Qed.
Lemma integer_INR n : integer (INR n).
Proof. exists (Z.of_nat n). apply INR_IZR_INZ. Qed.
Lemma in_axis n x : (0 < n)%nat -> (In x (axis n) <-> exists k, (k < 2 * n)%nat /\ x = - (1/2) + INR k / (2 * INR n)).
Proof.
  intros Hn. assert (P : 0 < INR n) by (apply lt_0_INR; exact Hn). unfold axis, arange.
  replace ((1 / 2 - - (1 / 2)) / (1 / (INR n * 2))) with (IZR (Z.of_nat (2 * n))) by (rewrite <- INR_IZR_INZ, mult_INR; simpl; field; lra).
  rewrite (rceil_unique _ (Z.of_nat (2 * n))) by lra. rewrite Nat2Z.id. rewrite in_map_iff. split.
  - intros [k [<- Hk]]. apply in_seq in Hk. exists k. split; [lia|]. field. lra.
  - intros [k [Hk ->]]. exists k. split; [field; lra|apply in_seq; lia].
Qed.
Lemma around_IZR' z : around (IZR z) = z.
Proof.
  unfold around. rewrite rfloor_IZR. replace (IZR z - IZR z) with 0 by ring. destruct (Rlt_dec 0 (1/2)); [reflexivity|lra].
Qed.
Lemma around5_fix x z : x = IZR z / 100000 -> around5 x = x.
Proof. intros ->. unfold around5. replace (IZR z / 100000 * 100000) with (IZR z) by field. rewrite around_IZR'. reflexivity. Qed.
Lemma in_points Pi n1 n2 n3 q : (0 < n1)%nat -> (0 < n2)%nat -> (0 < n3)%nat -> (In q (get_commensurate_points Pi n1 n2 n3) <->
  exists k1 k2 k3, In k1 (axis n1) /\ In k2 (axis n2) /\ In k3 (axis n3) /\ q = V3 (around5 k1) (around5 k2) (around5 k3) /\
  integer (vx (vmul q Pi) * INR n1 * 2) /\ integer (vy (vmul q Pi) * INR n2 * 2) /\ integer (vz (vmul q Pi) * INR n3 * 2)).
Proof.
  intros H1 H2 H3. unfold get_commensurate_points. rewrite in_flat_map. split.
  - intros [k1 [K1 H]]. apply in_flat_map in H. destruct H as [k2 [K2 H]]. apply in_flat_map in H. destruct H as [k3 [K3 H]]. cbv zeta in H.
    destruct (is_integer _ && is_integer _ && is_integer _) eqn:E; [|destruct H]. destruct H as [<-|[]]. apply andb_prop in E. destruct E as [E E3]. apply andb_prop in E. destruct E as [E1 E2].
    apply integer_iff in E1, E2, E3. exists k1, k2, k3. split; [exact K1|]. split; [exact K2|]. split; [exact K3|]. split; [reflexivity|]. split; [exact E1|]. split; [exact E2|exact E3].
  - intros [k1 [k2 [k3 [K1 [K2 [K3 [-> [E1 [E2 E3]]]]]]]]]. exists k1. split; [exact K1|]. apply in_flat_map. exists k2. split; [exact K2|]. apply in_flat_map. exists k3. split; [exact K3|]. cbv zeta.
    apply integer_iff in E1, E2, E3. cbn [vx vy vz]. rewrite E1, E2, E3. left. reflexivity.
Qed.
Lemma dot_inverse P Pi q t : is_inverse Pi P -> vdot q t = vdot (vmul q Pi) (mulv P t).
Proof.
  intros [_ H]. assert (E : vmul (vmul q Pi) P = q) by (rewrite vmul_mmul, H; apply vmul_mid).
  rewrite <- E at 1. unfold vdot, vmul, mulv, vadd, vscale, vdot. cbn [vx vy vz]. ring.
Qed.
Lemma commensurate_iff P Pi n1 n2 n3 q : is_inverse Pi P ->
  (commensurate P n1 n2 n3 q <-> integer (INR n1 * vx (vmul q Pi)) /\ integer (INR n2 * vy (vmul q Pi)) /\ integer (INR n3 * vz (vmul q Pi))).
Proof.
  intros I. split.
  - intros C. assert (T : forall e1 e2 e3 : Z, integer (vdot (vmul q Pi) (V3 (INR n1 * IZR e1) (INR n2 * IZR e2) (INR n3 * IZR e3)))).
    { intros e1 e2 e3. set (w := V3 _ _ _). assert (E : mulv P (mulv Pi w) = w). { rewrite mulv_mmul. destruct I as [-> _]. unfold mulv, mid, vdot, w. cbn. f_equal; ring. }
      rewrite <- E. rewrite <- (dot_inverse P Pi q (mulv Pi w) I). apply C. exists e1, e2, e3. exact E. }
    assert (T1 := T 1%Z 0%Z 0%Z). assert (T2 := T 0%Z 1%Z 0%Z). assert (T3 := T 0%Z 0%Z 1%Z). unfold vdot in T1, T2, T3. cbn [vx vy vz] in T1, T2, T3.
    split; [|split]; [replace (INR n1 * vx (vmul q Pi)) with (vx (vmul q Pi) * (INR n1 * 1) + vy (vmul q Pi) * (INR n2 * 0) + vz (vmul q Pi) * (INR n3 * 0)) by ring; exact T1
      |replace (INR n2 * vy (vmul q Pi)) with (vx (vmul q Pi) * (INR n1 * 0) + vy (vmul q Pi) * (INR n2 * 1) + vz (vmul q Pi) * (INR n3 * 0)) by ring; exact T2
      |replace (INR n3 * vz (vmul q Pi)) with (vx (vmul q Pi) * (INR n1 * 0) + vy (vmul q Pi) * (INR n2 * 0) + vz (vmul q Pi) * (INR n3 * 1)) by ring; exact T3].
  - intros [C1 [C2 C3]] t [z1 [z2 [z3 E]]]. rewrite (dot_inverse P Pi q t I), E. unfold vdot. cbn [vx vy vz].
    assert (G : forall x y, integer x -> integer (x * IZR y)) by (intros x y Hx; apply integer_mul; [exact Hx|exists y; reflexivity]).
    replace (vx (vmul q Pi) * (INR n1 * IZR z1)) with (INR n1 * vx (vmul q Pi) * IZR z1) by ring. replace (vy (vmul q Pi) * (INR n2 * IZR z2)) with (INR n2 * vy (vmul q Pi) * IZR z2) by ring.
    replace (vz (vmul q Pi) * (INR n3 * IZR z3)) with (INR n3 * vz (vmul q Pi) * IZR z3) by ring. repeat apply integer_add; apply G; assumption.
Qed.

(** What holds: every point of the program's grid (multiples of half the inverse multiplicities) that is commensurate is returned, when the grid
    steps have at most five decimals. *)
Theorem C95_all_found_partial : forall P Pi n1 n2 n3 k1 k2 k3, is_inverse Pi P -> (0 < n1)%nat -> (0 < n2)%nat -> (0 < n3)%nat ->
  (2 * Z.of_nat n1 | 100000)%Z -> (2 * Z.of_nat n2 | 100000)%Z -> (2 * Z.of_nat n3 | 100000)%Z -> (k1 < 2 * n1)%nat -> (k2 < 2 * n2)%nat -> (k3 < 2 * n3)%nat ->
  let q := V3 (- (1/2) + INR k1 / (2 * INR n1)) (- (1/2) + INR k2 / (2 * INR n2)) (- (1/2) + INR k3 / (2 * INR n3)) in
  commensurate P n1 n2 n3 q -> In q (get_commensurate_points Pi n1 n2 n3).
Proof.
  intros P Pi n1 n2 n3 k1 k2 k3 I H1 H2 H3 D1 D2 D3 K1 K2 K3 q C. apply (commensurate_iff P Pi) in C; [|exact I]. destruct C as [C1 [C2 C3]].
  assert (F : forall n k, (0 < n)%nat -> (2 * Z.of_nat n | 100000)%Z -> around5 (- (1/2) + INR k / (2 * INR n)) = - (1/2) + INR k / (2 * INR n)).
  { intros n k Hn [d Hd]. apply (around5_fix _ (-50000 + Z.of_nat k * d)). assert (0 < INR n) by (apply lt_0_INR; exact Hn).
    assert (E : IZR d * (2 * INR n) = 100000) by (rewrite (INR_IZR_INZ n), <- !mult_IZR, <- Hd; reflexivity).
    rewrite plus_IZR, mult_IZR, <- INR_IZR_INZ. apply Rmult_eq_reg_r with (2 * INR n); [|lra].
    replace ((- (1 / 2) + INR k / (2 * INR n)) * (2 * INR n)) with (- INR n + INR k) by (field; lra).
    replace ((-50000 + INR k * IZR d) / 100000 * (2 * INR n)) with (- (INR n) + INR k * (IZR d * (2 * INR n)) / 100000) by field. rewrite E. field. }
  apply in_points; try assumption. exists (- (1/2) + INR k1 / (2 * INR n1)), (- (1/2) + INR k2 / (2 * INR n2)), (- (1/2) + INR k3 / (2 * INR n3)).
  split; [apply in_axis; [assumption|eauto]|]. split; [apply in_axis; [assumption|eauto]|]. split; [apply in_axis; [assumption|eauto]|].
  split; [rewrite !F by assumption; reflexivity|].
  assert (G : forall x y, integer (x * y) -> integer (y * x * 2)) by (intros x y Hx; rewrite (Rmult_comm y x); apply integer_mul; [exact Hx|exists 2%Z; reflexivity]).
  split; [apply G; exact C1|]. split; [apply G; exact C2|apply G; exact C3].
Qed.

(** Everything returned has phases that are multiples of pi (not of 2 pi) on the supercell translations. *)
Theorem C95_half_phases_partial : forall P Pi n1 n2 n3 q t, is_inverse Pi P -> (0 < n1)%nat -> (0 < n2)%nat -> (0 < n3)%nat ->
  In q (get_commensurate_points Pi n1 n2 n3) -> supercell_translation P n1 n2 n3 t -> integer (2 * vdot q t).
Proof.
  intros P Pi n1 n2 n3 q t I H1 H2 H3 Hq Ht. apply in_points in Hq; try assumption. destruct Hq as [k1 [k2 [k3 [_ [_ [_ [_ [E1 [E2 E3]]]]]]]]].
  destruct Ht as [z1 [z2 [z3 E]]]. rewrite (dot_inverse P Pi q t I), E. unfold vdot. cbn [vx vy vz]. set (w := vmul q Pi) in *.
  replace (2 * (vx w * (INR n1 * IZR z1) + vy w * (INR n2 * IZR z2) + vz w * (INR n3 * IZR z3))) with
    (vx w * INR n1 * 2 * IZR z1 + vy w * INR n2 * 2 * IZR z2 + vz w * INR n3 * 2 * IZR z3) by ring.
  repeat apply integer_add; (apply integer_mul; [assumption|eexists; reflexivity]).
Qed.

(** Refuted: the corner point (-1/2, -1/2, -1/2) is always returned, also by supercells with an odd multiplicity, for which it is not commensurate. *)
Theorem C95_extra_point_refuted : forall P Pi n1 n2 n3, is_inverse Pi P -> integer_matrix Pi -> (0 < n1)%nat -> (0 < n2)%nat -> (0 < n3)%nat ->
  let corner := V3 (- (1/2)) (- (1/2)) (- (1/2)) in
  In corner (get_commensurate_points Pi n1 n2 n3) /\ (P = mid -> Nat.Odd n1 -> ~ commensurate P n1 n2 n3 corner).
Proof.
  intros P Pi n1 n2 n3 I M H1 H2 H3 corner. split.
  - apply in_points; try assumption. exists (- (1/2)), (- (1/2)), (- (1/2)).
    assert (A : forall n, (0 < n)%nat -> In (- (1/2)) (axis n)). { intros n Hn. apply in_axis; [exact Hn|]. exists 0%nat. split; [lia|]. simpl. unfold Rdiv. rewrite Rmult_0_l. ring. }
    split; [apply A; assumption|]. split; [apply A; assumption|]. split; [apply A; assumption|].
    split; [unfold corner; rewrite (around5_fix _ (-50000)) by lra; reflexivity|].
    unfold integer_matrix in M. destruct M as [A1 [A2 [A3 [B1 [B2 [B3 [C1 [C2 C3]]]]]]]].
    assert (G : forall n a b c, integer a -> integer b -> integer c -> integer ((- (1/2) * a + - (1/2) * b + - (1/2) * c) * INR n * 2)).
    { intros n a b c Ha Hb Hc. replace ((- (1/2) * a + - (1/2) * b + - (1/2) * c) * INR n * 2) with ((a + b + c) * INR n * -1) by field.
      apply integer_mul; [apply integer_mul; [repeat apply integer_add; assumption|apply integer_INR]|exists (-1)%Z; reflexivity]. }
    unfold corner, vmul, vadd, vscale. cbn [vx vy vz]. split; [apply G; assumption|]. split; apply G; assumption.
  - intros -> [m Hm] C. destruct (C (V3 (INR n1) 0 0)) as [z Hz]. { exists 1%Z, 0%Z, 0%Z. unfold mulv, mid, vdot. cbn. f_equal; ring. }
    unfold corner, vdot in Hz. cbn [vx vy vz] in Hz. assert (E : - INR n1 = 2 * IZR z) by lra.
    rewrite INR_IZR_INZ, <- opp_IZR in E. change 2 with (IZR 2) in E. rewrite <- mult_IZR in E. apply eq_IZR in E. lia.
Qed.

(** Refuted: a point with a coordinate that is not a multiple of 0.00001 is never returned; in particular, for a cubic primitive cell, (1/n, 0, 0) with n
    not a divisor of 100000 (3, 6, 7, 9, ...). *)
Theorem C95_missing_points_refuted : forall Pi n1 n2 n3, (0 < n1)%nat -> (0 < n2)%nat -> (0 < n3)%nat ->
  (forall q, In q (get_commensurate_points Pi n1 n2 n3) -> integer (100000 * vx q) /\ integer (100000 * vy q) /\ integer (100000 * vz q)) /\
  (~ (Z.of_nat n1 | 100000)%Z -> let q := V3 (1 / INR n1) 0 0 in commensurate mid n1 n2 n3 q /\ ~ In q (get_commensurate_points mid n1 n2 n3)).
Proof.
  intros Pi n1 n2 n3 H1 H2 H3.
  assert (A : forall x, integer (100000 * around5 x)) by (intros x; exists (around (x * 100000)); unfold around5; field).
  assert (G : forall Pi q, In q (get_commensurate_points Pi n1 n2 n3) -> integer (100000 * vx q) /\ integer (100000 * vy q) /\ integer (100000 * vz q)).
  { intros Pi' q Hq. apply in_points in Hq; try assumption. destruct Hq as [k1 [k2 [k3 [_ [_ [_ [-> _]]]]]]]. cbn [vx vy vz]. auto. }
  split; [apply G|]. intros D q. assert (P1 : 0 < INR n1) by (apply lt_0_INR; exact H1). split.
  - assert (Im : is_inverse mid mid) by (split; vec_ring). apply (commensurate_iff mid mid); [exact Im|]. rewrite vmul_mid. unfold q. cbn [vx vy vz].
    split; [exists 1%Z; field; lra|]. split; exists 0%Z; ring.
  - intros Hq. apply G in Hq. destruct Hq as [[z Hz] _]. unfold q in Hz. cbn [vx] in Hz. apply D.
    assert (E : 100000 = IZR z * INR n1) by (rewrite <- Hz; field; lra).
    rewrite INR_IZR_INZ, <- mult_IZR in E. apply eq_IZR in E. exists z. exact E.
Qed.

Print Assumptions C95_all_found_partial.
Print Assumptions C95_half_phases_partial.
Print Assumptions C95_extra_point_refuted.
Print Assumptions C95_missing_points_refuted.

(** 2 x 2 x 2 supercell of a cubic primitive cell: X = (-1/2, 0, 0) is commensurate and on the grid; a 3-fold supercell misses (1/3, 0, 0) *)
Example C95_nonvacuous : is_inverse mid mid /\ integer_matrix mid /\ (2 * Z.of_nat 2 | 100000)%Z /\ ~ (Z.of_nat 3 | 100000)%Z /\ Nat.Odd 3 /\
  commensurate mid 2 2 2 (V3 (- (1/2) + INR 0 / (2 * INR 2)) (- (1/2) + INR 2 / (2 * INR 2)) (- (1/2) + INR 2 / (2 * INR 2))).
Proof.
  assert (Im : is_inverse mid mid) by (split; vec_ring). split; [exact Im|].
  split; [unfold integer_matrix, mid; cbn; repeat split; first [exists 1%Z; reflexivity|exists 0%Z; reflexivity]|].
  split; [exists 25000%Z; reflexivity|]. split; [intros [d Hd]; lia|].
  split; [exists 1%nat; reflexivity|].
  apply (commensurate_iff mid mid); [exact Im|]. rewrite vmul_mid. cbn [vx vy vz]. simpl. split; [exists (-1)%Z; lra|]. split; exists 0%Z; lra.
Qed.
