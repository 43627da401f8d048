(** The orientation step of the LAMMPS reader (C38). *)
From Verif Require Import ParsersModel ParsersSpec GenerateSpec.
From Verif Require GenerateModel GenerateGeometry.
Open Scope R_scope.

Lemma dot_nonneg v : 0 <= vdot v v.
Proof. unfold vdot. nra. Qed.
Lemma norm_pos v : vdot v v <> 0 -> 0 < vnorm v.
Proof. intros H. unfold vnorm, vnorm2. apply sqrt_lt_R0. assert (X := dot_nonneg v). lra. Qed.
Lemma norm_sq v : vnorm v * vnorm v = vdot v v.
Proof. apply sqrt_sqrt, dot_nonneg. Qed.
Lemma dot_zero v : vdot v v = 0 -> v = vzero.
Proof. destruct v as [x y z]. unfold vdot. cbn. intros H. assert (x = 0) by nra. assert (y = 0) by nra. assert (z = 0) by nra. subst. reflexivity. Qed.
Lemma det_rows m : mdet m <> 0 -> vdot (r0 m) (r0 m) <> 0 /\ vdot (r1 m) (r1 m) <> 0 /\ vdot (r2 m) (r2 m) <> 0.
Proof. intros H. repeat split; intros E; apply dot_zero in E; apply H; unfold mdet; rewrite E; cbn; ring. Qed.
Lemma det_mmul a b : mdet (mmul a b) = mdet a * mdet b.
Proof. destruct a as [[] [] []], b as [[] [] []]. unfold mmul, vmul, vadd, vscale, mdet. cbn. ring. Qed.
Lemma det_mT a : mdet (mT a) = mdet a.
Proof. unfold mdet, mT. cbn. ring. Qed.
(* diag(n) * unit = matrix *)
Definition norms (m : mat) : mat := mdiag (vnorm (r0 m)) (vnorm (r1 m)) (vnorm (r2 m)).
Lemma unit_split m : mdet m <> 0 -> mmul (norms m) (unit_matrix m) = m.
Proof.
  intros H. destruct (det_rows m H) as (H0 & H1 & H2). apply norm_pos in H0, H1, H2.
  unfold norms, unit_matrix, unit_row. unfold mmul, vmul, mdiag, vadd, vscale. cbn.
  apply mat_eq; apply vec_eq; cbn [r0 r1 r2 vx vy vz]; field; repeat split; lra.
Qed.
Lemma unit_det m : mdet m <> 0 -> mdet (unit_matrix m) <> 0.
Proof. intros H E. apply H. rewrite <- (unit_split m H), det_mmul, E. ring. Qed.
Lemma unit_gram m : mdet m <> 0 -> mmul (unit_matrix m) (mT (unit_matrix m)) =
  M3 (V3 1 (cosine (r0 m) (r1 m)) (cosine (r0 m) (r2 m))) (V3 (cosine (r0 m) (r1 m)) 1 (cosine (r1 m) (r2 m))) (V3 (cosine (r0 m) (r2 m)) (cosine (r1 m) (r2 m)) 1).
Proof.
  intros H. destruct (det_rows m H) as (H0 & H1 & H2). apply norm_pos in H0, H1, H2.
  assert (N0 := norm_sq (r0 m)). assert (N1 := norm_sq (r1 m)). assert (N2 := norm_sq (r2 m)).
  assert (D : forall u v p q, p <> 0 -> q <> 0 -> vdot (vscale (/ p) u) (vscale (/ q) v) = vdot u v / (p * q)) by (intros; unfold vdot, vscale; cbn; field; split; assumption).
  assert (C : forall u v, vdot u v = vdot v u) by (intros; unfold vdot; ring).
  assert (Row : forall u m, vmul u (mT m) = V3 (vdot u (r0 m)) (vdot u (r1 m)) (vdot u (r2 m))) by (intros; unfold vmul, mT, vadd, vscale, vdot; cbn; f_equal; ring).
  unfold mmul. rewrite !Row. unfold unit_matrix, unit_row. cbn [r0 r1 r2]. unfold cosine.
  rewrite !D by lra. rewrite (C (r1 m) (r0 m)), (C (r2 m) (r0 m)), (C (r2 m) (r1 m)).
  rewrite <- N0, <- N1, <- N2. f_equal; f_equal; field; repeat split; lra.
Qed.
Lemma mat_entries a b : a = b -> vx (r0 a) = vx (r0 b) /\ vy (r0 a) = vy (r0 b) /\ vz (r0 a) = vz (r0 b) /\ vz (r1 a) = vz (r1 b).
Proof. intros ->. repeat split. Qed.
Lemma gram_angles c m : mdet c <> 0 -> mdet m <> 0 -> (mmul (unit_matrix m) (mT (unit_matrix m)) = mmul (unit_matrix c) (mT (unit_matrix c)) <-> same_angles c m).
Proof.
  intros Hc Hm. rewrite !unit_gram by assumption. unfold same_angles. split.
  - intros E. apply mat_entries in E. cbn in E. destruct E as (_ & E1 & E2 & E3). repeat split; congruence.
  - intros (E1 & E2 & E3). rewrite E1, E2, E3. reflexivity.
Qed.
Section G.
Context (inv : mat -> mat) (Hinv : forall m, mdet m <> 0 -> is_inverse (inv m) m).
Lemma unit_rotated c m : mdet c <> 0 -> mdet m <> 0 ->
  (mmul (unit_matrix m) (transformation inv c m) = unit_matrix c <-> same_angles c m).
Proof.
  intros Hc Hm. rewrite <- gram_angles by assumption. destruct (Hinv _ (unit_det c Hc)) as [I1 I2].
  unfold transformation. rewrite mT_mmul. set (U := unit_matrix c) in *. set (S := unit_matrix m) in *. rewrite <- mmul_assoc. split.
  - intros E. rewrite <- E at 1. rewrite (mmul_assoc _ (mT (inv U))), <- mT_mmul, I1, mT_mid, mmul_id_r. reflexivity.
  - intros ->. rewrite mmul_assoc, <- mT_mmul, I2, mT_mid, mmul_id_r. reflexivity.
Qed.
Lemma rotated c m : mdet c <> 0 -> mdet m <> 0 -> same_angles c m ->
  mmul m (transformation inv c m) = M3 (vscale (vnorm (r0 m) / vnorm (r0 c)) (r0 c)) (vscale (vnorm (r1 m) / vnorm (r1 c)) (r1 c)) (vscale (vnorm (r2 m) / vnorm (r2 c)) (r2 c)).
Proof.
  intros Hc Hm Hs. apply (unit_rotated c m Hc Hm) in Hs.
  assert (E : mmul m (transformation inv c m) = mmul (norms m) (mmul (unit_matrix m) (transformation inv c m))) by (rewrite <- mmul_assoc, unit_split by exact Hm; reflexivity).
  rewrite E, Hs. destruct (det_rows c Hc) as (H0 & H1 & H2). apply norm_pos in H0, H1, H2.
  unfold norms, unit_matrix, unit_row, mmul, vmul, mdiag, vadd, vscale. cbn. f_equal; f_equal; field; repeat split; lra.
Qed.
Lemma diag_left_cancel x y z a b : x <> 0 -> y <> 0 -> z <> 0 -> mmul (mdiag x y z) a = mmul (mdiag x y z) b -> a = b.
Proof.
  intros Hx Hy Hz E. apply (f_equal (mmul (mdiag (/ x) (/ y) (/ z)))) in E. rewrite <- !mmul_assoc in E.
  assert (I : mmul (mdiag (/ x) (/ y) (/ z)) (mdiag x y z) = mid) by (unfold mmul, vmul, mdiag, mid, vadd, vscale; cbn; f_equal; f_equal; field; assumption).
  rewrite I, !mmul_id_l in E. exact E.
Qed.
Lemma rotated_iff c m : mdet c <> 0 -> mdet m <> 0 ->
  (mmul m (transformation inv c m) = M3 (vscale (vnorm (r0 m) / vnorm (r0 c)) (r0 c)) (vscale (vnorm (r1 m) / vnorm (r1 c)) (r1 c)) (vscale (vnorm (r2 m) / vnorm (r2 c)) (r2 c)) <-> same_angles c m).
Proof.
  intros Hc Hm. split; [|apply rotated; assumption]. intros E. apply (unit_rotated c m Hc Hm).
  destruct (det_rows c Hc) as (H0 & H1 & H2). apply norm_pos in H0, H1, H2.
  destruct (det_rows m Hm) as (G0 & G1 & G2). apply norm_pos in G0, G1, G2.
  apply (diag_left_cancel (vnorm (r0 m)) (vnorm (r1 m)) (vnorm (r2 m))); try lra.
  change (mdiag (vnorm (r0 m)) (vnorm (r1 m)) (vnorm (r2 m))) with (norms m). rewrite <- mmul_assoc, unit_split by exact Hm. rewrite E.
  unfold norms, unit_matrix, unit_row, mmul, vmul, mdiag, vadd, vscale. cbn. f_equal; f_equal; field; repeat split; lra.
Qed.
Lemma orthogonal c m : mdet c <> 0 -> mdet m <> 0 -> same_angles c m -> mmul (transformation inv c m) (mT (transformation inv c m)) = mid.
Proof.
  intros Hc Hm Hs. assert (Hu := proj2 (unit_rotated c m Hc Hm) Hs). apply (gram_angles c m Hc Hm) in Hs.
  destruct (Hinv _ (unit_det m Hm)) as [J1 J2]. destruct (Hinv _ (unit_det c Hc)) as [I1 I2].
  set (t := transformation inv c m) in *. set (U := unit_matrix c) in *. set (S := unit_matrix m) in *.
  (* S (t tT) ST = U UT = S ST *)
  assert (E : mmul S (mmul (mmul t (mT t)) (mT S)) = mmul S (mT S)) by (rewrite Hs, <- Hu, mT_mmul, !mmul_assoc; reflexivity).
  apply (f_equal (mmul (inv S))) in E. rewrite <- !mmul_assoc, J2, !mmul_id_l in E. rewrite mmul_assoc in E.
  apply (f_equal (fun x => mmul x (mT (inv S)))) in E. cbn beta in E.
  assert (K : mmul (mT S) (mT (inv S)) = mid) by (rewrite <- mT_mmul, J2; apply mT_mid).
  rewrite K in E. rewrite <- E. rewrite !mmul_assoc, K, mmul_id_r. reflexivity.
Qed.
Lemma orth_dot t u v : mmul t (mT t) = mid -> vdot (vmul u t) (vmul v t) = vdot u v.
Proof.
  intros H. assert (D : vdot (vmul u t) (vmul v t) = vdot (vmul u (mmul t (mT t))) v) by (destruct u, v, t as [[] [] []]; unfold vdot, vmul, mmul, mT, vadd, vscale; cbn; ring).
  rewrite D, H, vmul_mid. reflexivity.
Qed.
(** writing with generate_LAMMPS_structure, dumping with LAMMPS and reading back *)
Lemma norm_dot u v : vdot u u = vdot v v -> vnorm u = vnorm v.
Proof. intros H. unfold vnorm, vnorm2. rewrite H. reflexivity. Qed.
Lemma cosine_scale p q u v : 0 < p -> 0 < q -> vdot u u <> 0 -> vdot v v <> 0 -> cosine (vscale p u) (vscale q v) = cosine u v.
Proof.
  intros Hp Hq Hu Hv. apply norm_pos in Hu, Hv. unfold cosine.
  assert (N : forall k w, 0 < k -> vnorm (vscale k w) = k * vnorm w).
  { intros k w Hk. unfold vnorm, vnorm2. replace (vdot (vscale k w) (vscale k w)) with ((k * k) * vdot w w) by (unfold vdot, vscale; cbn; ring). rewrite sqrt_mult by (try nra; apply dot_nonneg). rewrite sqrt_square by lra. reflexivity. }
  rewrite !N by assumption. replace (vdot (vscale p u) (vscale q v)) with (p * q * vdot u v) by (unfold vdot, vscale; cbn; ring). field. repeat split; lra.
Qed.
Lemma round_trip c kx ky kz : mdet c <> 0 -> 0 < kx -> 0 < ky -> 0 < kz ->
  let super := mmul (mdiag kx ky kz) c in
  let '(lx, ly, lz, txy, txz, tyz) := GenerateModel.lammps_box super in
  let m := lammps_lattice lx ly lz txy txz tyz in
  mmul m (transformation inv c m) = super.
Proof.
  intros Hc Hx Hy Hz super.
  assert (Hs : mdet super <> 0). { unfold super. rewrite det_mmul. intros E. apply Rmult_integral in E. destruct E as [E|E]; [|exact (Hc E)]. revert E. unfold mdet, mdiag. cbn. assert (0 < kx * ky) by nra. assert (0 < kx * ky * kz) by nra. lra. }
  assert (B := GenerateGeometry.box_lattice super Hs). destruct (GenerateModel.lammps_box super) as [[[[[lx ly] lz] txy] txz] tyz]. destruct B as (B & _). cbv zeta. rewrite B.
  assert (Sh := GenerateGeometry.shape super Hs). set (m := GenerateModel.lammps_cell super) in *.
  assert (Sh' : forall f g, In f [r0; r1; r2] -> In g [r0; r1; r2] -> vdot (f m) (g m) = vdot (f super) (g super)) by exact Sh.
  assert (Hm : mdet m <> 0) by (assert (X := GenerateGeometry.lam_det_pos super Hs); fold m in X; lra).
  destruct (det_rows c Hc) as (D0 & D1 & D2).
  assert (R0 : r0 super = vscale kx (r0 c)) by (unfold super, mmul, vmul, mdiag, vadd, vscale; cbn; f_equal; ring).
  assert (R1 : r1 super = vscale ky (r1 c)) by (unfold super, mmul, vmul, mdiag, vadd, vscale; cbn; f_equal; ring).
  assert (R2 : r2 super = vscale kz (r2 c)) by (unfold super, mmul, vmul, mdiag, vadd, vscale; cbn; f_equal; ring).
  assert (N0 : vnorm (r0 m) = vnorm (r0 super)) by (apply norm_dot, Sh'; cbn; auto).
  assert (N1 : vnorm (r1 m) = vnorm (r1 super)) by (apply norm_dot, Sh'; cbn; auto).
  assert (N2 : vnorm (r2 m) = vnorm (r2 super)) by (apply norm_dot, Sh'; cbn; auto).
  assert (N : forall k w, 0 < k -> vnorm (vscale k w) = k * vnorm w).
  { intros k w Hk. unfold vnorm, vnorm2. replace (vdot (vscale k w) (vscale k w)) with ((k * k) * vdot w w) by (unfold vdot, vscale; cbn; ring). rewrite sqrt_mult by (try nra; apply dot_nonneg). rewrite sqrt_square by lra. reflexivity. }
  rewrite rotated; try assumption.
  - rewrite N0, N1, N2, R0, R1, R2, !N by assumption. apply norm_pos in D0, D1, D2.
    replace (kx * vnorm (r0 c) / vnorm (r0 c)) with kx by (field; lra). replace (ky * vnorm (r1 c) / vnorm (r1 c)) with ky by (field; lra). replace (kz * vnorm (r2 c) / vnorm (r2 c)) with kz by (field; lra).
    rewrite <- R0, <- R1, <- R2. destruct super; reflexivity.
  - unfold same_angles.
    assert (A : forall f g, In f [r0; r1; r2] -> In g [r0; r1; r2] -> cosine (f m) (g m) = cosine (f super) (g super)).
    { intros f g Hf Hg. unfold cosine. rewrite (Sh' f g Hf Hg), (norm_dot (f m) (f super)), (norm_dot (g m) (g super)); [reflexivity|apply Sh'; assumption|apply Sh'; assumption]. }
    rewrite !(A r0), (A r1) by (cbn; auto). rewrite R0, R1, R2. rewrite !cosine_scale by assumption. repeat split; reflexivity.
Qed.
End G.
Lemma box_det b : mdet (box_lattice b) = (xhi b - xlo b) * (yhi b - ylo b) * (zhi b - zlo b).
Proof. unfold mdet, box_lattice. cbn. ring. Qed.
