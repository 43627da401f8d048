From Verif Require Import GenerateModel GenerateSpec.
From Coq Require Import Psatz.
Open Scope R_scope.

Lemma max_split x y : Rmax (Rmax (Rmax 0 x) y) (x + y) = Rmax 0 x + Rmax 0 y.
Proof.
  destruct (Rle_lt_dec 0 x), (Rle_lt_dec 0 y).
  - rewrite (Rmax_right 0 x), (Rmax_right 0 y) by lra. apply Rmax_right. apply Rmax_lub; lra.
  - rewrite (Rmax_right 0 x), (Rmax_left 0 y) by lra. rewrite (Rmax_left x y) by lra. rewrite Rmax_left; lra.
  - rewrite (Rmax_left 0 x), (Rmax_right 0 y) by lra. rewrite Rmax_left; lra.
  - rewrite (Rmax_left 0 x), (Rmax_left 0 y) by lra. rewrite Rmax_left; lra.
Qed.
Section Geo.
Context (cell : mat) (Hdet : mdet cell <> 0).
Let a := r0 cell. Let b := r1 cell. Let c := r2 cell.
Let p := vdot a a. Let q := vdot a b. Let r := vdot a c. Let s := vdot b b. Let t := vdot b c. Let v := vdot c c.
Lemma gram : p * s * v + 2 * q * r * t - p * t * t - s * r * r - v * q * q = mdet cell * mdet cell.
Proof. unfold p, q, r, s, t, v, a, b, c, mdet, vdot. ring. Qed.
Lemma dot_nonneg x : 0 <= vdot x x.
Proof. unfold vdot. nra. Qed.
Lemma lagrange x y : vdot x x * vdot y y - vdot x y * vdot x y = vdot (cross x y) (cross x y).
Proof. unfold vdot, cross. cbn. ring. Qed.
Lemma cs x y : vdot x y * vdot x y <= vdot x x * vdot y y.
Proof. assert (H := lagrange x y). assert (H' := dot_nonneg (cross x y)). lra. Qed.
Lemma det_pos : 0 < mdet cell * mdet cell.
Proof. nra. Qed.
Lemma minor_pos : 0 < p * s - q * q.
Proof.
  assert (G := gram). assert (D := det_pos). assert (L := lagrange a b). fold p q s in L. assert (P := dot_nonneg (cross a b)).
  destruct (Rle_lt_dec (p * s - q * q) 0) as [H|H]; [exfalso|exact H]. assert (Z : p * s - q * q = 0) by lra.
  (* p * det^2 = (p s - q^2)(p v - r^2) - (p t - q r)^2 *)
  assert (I : p * (mdet cell * mdet cell) = (p * s - q * q) * (p * v - r * r) - (p * t - q * r) * (p * t - q * r)) by (rewrite <- G; ring).
  assert (I' : s * (mdet cell * mdet cell) = (p * s - q * q) * (s * v - t * t) - (s * r - q * t) * (s * r - q * t)) by (rewrite <- G; ring).
  rewrite Z in I, I'. assert (Pp : 0 <= p) by apply dot_nonneg. assert (Ps : 0 <= s) by apply dot_nonneg.
  assert (Sq : forall z, 0 <= z * z) by (intros z; nra). assert (S1 := Sq (p * t - q * r)). assert (S2 := Sq (s * r - q * t)). assert (p * (mdet cell * mdet cell) <= 0) by lra. assert (s * (mdet cell * mdet cell) <= 0) by lra. assert (Ep : p = 0) by nra. assert (Es : s = 0) by nra.
  assert (Eq : q * q = 0) by (rewrite Ep in Z; lra). assert (Eq' : q = 0) by (apply Rmult_integral in Eq; tauto). rewrite Ep, Es, Eq' in G. lra.
Qed.
Lemma p_pos : 0 < p.
Proof. assert (H := minor_pos). assert (0 <= p) by apply dot_nonneg. assert (0 <= s) by apply dot_nonneg. destruct (Req_dec p 0) as [E|E]; [|lra]. rewrite E in H. nra. Qed.
Lemma s_pos : 0 < s.
Proof. assert (H := minor_pos). assert (0 <= p) by apply dot_nonneg. assert (0 <= s) by apply dot_nonneg. destruct (Req_dec s 0) as [E|E]; [|lra]. rewrite E in H. nra. Qed.
Lemma v_pos : 0 < v.
Proof. assert (G := gram). assert (D := det_pos). assert (0 <= v) by apply dot_nonneg. destruct (Req_dec v 0) as [E|E]; [|lra]. exfalso.
  assert (C1 := cs a c). fold p r v in C1. assert (C2 := cs b c). fold s t v in C2. rewrite E in *. assert (r * r <= 0) by lra. assert (t * t <= 0) by lra. assert (Er : r = 0) by nra. assert (Et : t = 0) by nra. rewrite Er, Et in G. lra. Qed.
Let na := sqrt p.
Lemma na_pos : 0 < na. Proof. apply sqrt_lt_R0, p_pos. Qed.
Lemma na2 : na * na = p. Proof. apply sqrt_sqrt. apply Rlt_le, p_pos. Qed.
Let bx := q / na. Let cx := r / na.
Let BY2 := s - q * q / p.
Lemma BY2_pos : 0 < BY2.
Proof. unfold BY2. assert (H := minor_pos). assert (P := p_pos). replace (s - q * q / p) with ((p * s - q * q) / p) by (field; lra). apply Rdiv_lt_0_compat; assumption. Qed.
Let by_ := sqrt BY2.
Lemma by_pos : 0 < by_. Proof. apply sqrt_lt_R0, BY2_pos. Qed.
Lemma by2 : by_ * by_ = BY2. Proof. apply sqrt_sqrt. apply Rlt_le, BY2_pos. Qed.
Let cy := (t - bx * cx) / by_.
Lemma bx2 : bx * bx = q * q / p. Proof. unfold bx. rewrite <- na2. assert (H := na_pos). field. lra. Qed.
Lemma cx2 : cx * cx = r * r / p. Proof. unfold cx. rewrite <- na2. assert (H := na_pos). field. lra. Qed.
Lemma bxcx : bx * cx = q * r / p. Proof. unfold bx, cx. rewrite <- na2. assert (H := na_pos). field. lra. Qed.
Lemma cy2 : cy * cy = (t - q * r / p) * (t - q * r / p) / BY2.
Proof. unfold cy. rewrite bxcx. rewrite <- by2. assert (H := by_pos). assert (P := p_pos). field. split; lra. Qed.
Let CZ2 := v - cx * cx - cy * cy.
Lemma CZ2_val : CZ2 = mdet cell * mdet cell / (p * s - q * q).
Proof. unfold CZ2. rewrite cx2, cy2. unfold BY2. rewrite <- gram. assert (H := minor_pos). assert (P := p_pos). field. repeat split; nra. Qed.
Lemma CZ2_pos : 0 < CZ2.
Proof. rewrite CZ2_val. apply Rdiv_lt_0_compat; [exact det_pos|exact minor_pos]. Qed.
Let cz := sqrt CZ2.
Lemma cz_pos : 0 < cz. Proof. apply sqrt_lt_R0, CZ2_pos. Qed.
Lemma cz2 : cz * cz = CZ2. Proof. apply sqrt_sqrt. apply Rlt_le, CZ2_pos. Qed.

Lemma dot_unit x : vdot x (vdiv a na) = vdot a x / na.
Proof. unfold vdot, vdiv. cbn. assert (H := na_pos). field. lra. Qed.
Lemma lammps_cell_eq : lammps_cell cell = M3 (V3 na 0 0) (V3 bx by_ 0) (V3 cx cy cz).
Proof.
  unfold lammps_cell. cbv zeta. fold a b c. unfold vnorm, vnorm2. fold p. fold na. rewrite !dot_unit. fold q r. fold bx cx. fold t v.
  assert (E : vdot (cross (vdiv a na) b) (cross (vdiv a na) b) = BY2).
  { rewrite <- lagrange. rewrite !dot_unit. replace (vdot (vdiv a na) b) with (vdot b (vdiv a na)) by (unfold vdot; ring). rewrite dot_unit. replace (vdot a (vdiv a na)) with (p / na) by (symmetry; apply dot_unit).
    fold q s. try fold p. unfold BY2. rewrite <- !na2. assert (H := na_pos). field. lra. }
  rewrite E. fold by_. fold cy. replace (v - cx^2 - cy^2) with CZ2 by (unfold CZ2; ring). reflexivity.
Qed.
Lemma shape : same_shape (lammps_cell cell) cell.
Proof.
  rewrite lammps_cell_eq. intros f g Hf Hg.
  assert (Haa : na * na = p) by exact na2. assert (Hab : na * bx = q) by (unfold bx; assert (H := na_pos); field; lra). assert (Hac : na * cx = r) by (unfold cx; assert (H := na_pos); field; lra).
  assert (Hbb : bx * bx + by_ * by_ = s) by (rewrite bx2, by2; unfold BY2; ring). assert (Hbc : bx * cx + by_ * cy = t) by (unfold cy; assert (H := by_pos); field; lra). assert (Hcc : cx * cx + cy * cy + cz * cz = v) by (rewrite cz2; unfold CZ2; ring).
  unfold p, q, r, s, t, v, a, b, c, vdot in Haa, Hab, Hac, Hbb, Hbc, Hcc.
  cbn in Hf, Hg. destruct Hf as [<-|[<-|[<-|[]]]], Hg as [<-|[<-|[<-|[]]]]; unfold vdot; cbn; lra.
Qed.
Lemma lam_det : mdet (lammps_cell cell) = na * by_ * cz.
Proof. rewrite lammps_cell_eq. unfold mdet. cbn. ring. Qed.
Lemma lam_det_pos : 0 < mdet (lammps_cell cell).
Proof. rewrite lam_det. repeat apply Rmult_lt_0_compat; [exact na_pos|exact by_pos|exact cz_pos]. Qed.
Lemma acos_ratio x y : 0 < vdot x x -> 0 < vdot y y -> forall n1 n2, n1 * n1 = vdot x x -> n2 * n2 = vdot y y -> 0 < n1 -> 0 < n2 -> cos (acos (vdot x y / (n1 * n2))) = vdot x y / (n1 * n2).
Proof.
  intros Hx Hy n1 n2 E1 E2 P1 P2. apply cos_acos. assert (C := cs x y). assert (N : 0 < n1 * n2) by (apply Rmult_lt_0_compat; assumption).
  assert (B : vdot x y * vdot x y <= (n1 * n2) * (n1 * n2)) by (replace ((n1 * n2) * (n1 * n2)) with ((n1 * n1) * (n2 * n2)) by ring; rewrite E1, E2; exact C).
  assert (L1 : vdot x y <= n1 * n2) by nra. assert (L2 : - (n1 * n2) <= vdot x y) by nra. assert (I : 0 < / (n1 * n2)) by (apply Rinv_0_lt_compat; exact N). assert (J : (n1 * n2) * / (n1 * n2) = 1) by (apply Rinv_r; lra). unfold Rdiv. split; nra.
Qed.
Lemma dot_comm x y : vdot x y = vdot y x. Proof. unfold vdot. ring. Qed.
Lemma box_eq : lammps_box cell = (na, by_, cz, bx, cx, cy).
Proof.
  unfold lammps_box, cell_parameters. fold a b c. unfold vnorm, vnorm2. fold p s v.
  assert (Ps := s_pos). assert (Pv := v_pos). assert (Pp := p_pos). set (nb := sqrt s). set (nc := sqrt v). fold na.
  assert (Nb : nb * nb = s) by (apply sqrt_sqrt; lra). assert (Nc : nc * nc = v) by (apply sqrt_sqrt; lra). assert (Pb : 0 < nb) by (apply sqrt_lt_R0; exact Ps). assert (Pc : 0 < nc) by (apply sqrt_lt_R0; exact Pv). assert (Pa := na_pos). assert (Na := na2).
  rewrite (dot_comm c a), (dot_comm b a). rewrite (acos_ratio a c Pp Pv na nc Na Nc Pa Pc). rewrite (acos_ratio a b Pp Ps na nb Na Nb Pa Pb). rewrite (Rmult_comm nc nb). rewrite (acos_ratio b c Ps Pv nb nc Nb Nc Pb Pc). fold q r t.
  replace (nb * (q / (na * nb))) with bx by (unfold bx; field; split; lra). replace (nc * (r / (na * nc))) with cx by (unfold cx; field; split; lra). replace (nb * nc * (t / (nb * nc))) with t by (field; split; lra).
  replace (nb^2 - bx^2) with BY2. 2:{ unfold BY2. replace (nb^2) with (nb * nb) by ring. replace (bx^2) with (bx * bx) by ring. rewrite Nb, bx2. reflexivity. }
  fold by_. fold cy. replace (nc^2 - cx^2 - cy^2) with CZ2. 2:{ unfold CZ2. replace (nc^2) with (nc * nc) by ring. rewrite Nc. ring. }
  fold cz. cbv zeta.
  assert (M1 : (if Rlt_dec 0 cx then (if Rlt_dec 0 bx then na + Rmax (Rmax (Rmax 0 bx) cx) (bx + cx) - bx else na + Rmax (Rmax (Rmax 0 bx) cx) (bx + cx)) - cx else if Rlt_dec 0 bx then na + Rmax (Rmax (Rmax 0 bx) cx) (bx + cx) - bx else na + Rmax (Rmax (Rmax 0 bx) cx) (bx + cx)) = na).
  { rewrite max_split. destruct (Rlt_dec 0 cx), (Rlt_dec 0 bx); repeat first [rewrite (Rmax_right 0 bx) by lra|rewrite (Rmax_left 0 bx) by lra|rewrite (Rmax_right 0 cx) by lra|rewrite (Rmax_left 0 cx) by lra]; lra. }
  assert (M2 : (if Rlt_dec 0 cy then by_ + Rmax 0 cy - cy else by_ + Rmax 0 cy) = by_). { destruct (Rlt_dec 0 cy); [rewrite Rmax_right by lra|rewrite Rmax_left by lra]; lra. }
  rewrite M1, M2. reflexivity.
Qed.
Lemma box_lattice : let '(xhi, yhi, zhi, xy, xz, yz) := lammps_box cell in lammps_lattice xhi yhi zhi xy xz yz = lammps_cell cell /\ 0 < xhi /\ 0 < yhi /\ 0 < zhi.
Proof. rewrite box_eq, lammps_cell_eq. split; [reflexivity|]. split; [exact na_pos|]. split; [exact by_pos|exact cz_pos]. Qed.

(** rotation *)
Context (inv : mat -> mat) (Hinv : is_inverse (inv cell) cell).
Lemma frac_kept f : vmul (vmul f cell) (trans_cell inv cell) = vmul f (lammps_cell cell).
Proof. unfold trans_cell. rewrite vmul_mmul, <- mmul_assoc, (proj1 Hinv), mmul_id_l. reflexivity. Qed.
Lemma gram_mat : mmul (lammps_cell cell) (mT (lammps_cell cell)) = mmul cell (mT cell).
Proof.
  assert (S := shape). assert (I0 : In r0 [r0; r1; r2]) by (left; reflexivity). assert (I1 : In r1 [r0; r1; r2]) by (right; left; reflexivity). assert (I2 : In r2 [r0; r1; r2]) by (right; right; left; reflexivity).
  assert (G : forall m, mmul m (mT m) = M3 (V3 (vdot (r0 m) (r0 m)) (vdot (r0 m) (r1 m)) (vdot (r0 m) (r2 m))) (V3 (vdot (r1 m) (r0 m)) (vdot (r1 m) (r1 m)) (vdot (r1 m) (r2 m))) (V3 (vdot (r2 m) (r0 m)) (vdot (r2 m) (r1 m)) (vdot (r2 m) (r2 m)))).
  { intros m. unfold mmul, mT, vmul, vadd, vscale, vdot. cbn. reflexivity. }
  rewrite !G. rewrite !(fun f g Hf Hg => S f g Hf Hg) by assumption. reflexivity.
Qed.
Lemma trans_orth : mmul (trans_cell inv cell) (mT (trans_cell inv cell)) = mid.
Proof.
  unfold trans_cell. rewrite mT_mmul. rewrite mmul_assoc. rewrite <- (mmul_assoc (lammps_cell cell)). rewrite gram_mat. rewrite <- mmul_assoc. rewrite <- (mmul_assoc (inv cell) cell). rewrite (proj2 Hinv), mmul_id_l. rewrite <- mT_mmul, (proj2 Hinv). apply mT_mid.
Qed.
Lemma norm_trans x : vdot (vmul x (trans_cell inv cell)) (vmul x (trans_cell inv cell)) = vdot x x.
Proof.
  assert (E : forall y m, vdot (vmul y m) (vmul y m) = vdot (vmul y (mmul m (mT m))) y). { intros y m. unfold mmul, mT, vmul, vadd, vscale, vdot. cbn. ring. }
  rewrite E, trans_orth, vmul_mid. reflexivity.
Qed.
Lemma det_mmul x y : mdet (mmul x y) = mdet x * mdet y.
Proof. unfold mdet, mmul, vmul, vadd, vscale. cbn. ring. Qed.
Lemma det_inv : mdet (inv cell) * mdet cell = 1.
Proof. rewrite <- det_mmul, (proj2 Hinv). unfold mdet, mid. cbn. ring. Qed.
Lemma det_mT x : mdet (mT x) = mdet x. Proof. unfold mdet, mT. cbn. ring. Qed.
Lemma det_trans : mdet (trans_cell inv cell) = if Rlt_dec 0 (mdet cell) then 1 else -1.
Proof.
  assert (O := f_equal mdet trans_orth). rewrite det_mmul, det_mT in O. replace (mdet mid) with 1 in O by (unfold mdet, mid; cbn; ring).
  assert (E : mdet (trans_cell inv cell) * mdet cell = mdet (lammps_cell cell)). { unfold trans_cell. rewrite det_mmul. assert (H := det_inv). replace (mdet (inv cell) * mdet (lammps_cell cell) * mdet cell) with ((mdet (inv cell) * mdet cell) * mdet (lammps_cell cell)) by ring. rewrite H. ring. }
  assert (P := lam_det_pos). set (d := mdet (trans_cell inv cell)) in *. assert (D : (d - 1) * (d + 1) = 0) by lra. apply Rmult_integral in D. destruct (Rlt_dec 0 (mdet cell)); destruct D; nra.
Qed.
End Geo.
