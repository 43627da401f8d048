From Verif Require Import PhonopyLinkModel PhonopyLinkSpec.
From Coq Require Import Permutation.
Open Scope R_scope.

Section E.
Context {A : Type}.
Lemma concat_nth_const (n : nat) (l : list (list A)) : (forall x, In x l -> length x = n) -> forall i j x, nth_error l i = Some x -> (j < n)%nat -> nth_error (concat l) (i * n + j) = nth_error x j.
Proof.
  induction l as [|y l IH]; intros Hl i j x Hi Hj; [destruct i; discriminate|]. assert (Ly := Hl y (or_introl eq_refl)). cbn [concat]. destruct i as [|i].
  - injection Hi as ->. cbn. apply nth_error_app1. lia.
  - rewrite nth_error_app2 by (cbn; lia). rewrite Ly. replace (S i * n + j - n)%nat with (i * n + j)%nat by (cbn; lia). apply IH; [intros z Hz; apply Hl; right; exact Hz|exact Hi|exact Hj].
Qed.
Lemma concat_length_const (n : nat) (l : list (list A)) : (forall x, In x l -> length x = n) -> length (concat l) = (length l * n)%nat.
Proof. induction l as [|y l IH]; intros H; [reflexivity|]. cbn [concat length]. rewrite app_length, (H y (or_introl eq_refl)), IH by (intros z Hz; apply H; right; exact Hz). lia. Qed.
Lemma nth_error_seq_map {B} (f : nat -> B) n i : (i < n)%nat -> nth_error (map f (seq 0 n)) i = Some (f i).
Proof. intros H. rewrite nth_error_map, (nth_error_nth' _ 0%nat) by (rewrite seq_length; exact H). rewrite seq_nth by exact H. reflexivity. Qed.
Lemma arranged_entry ndim nprim (ev : nat -> nat -> A) i j k : (i < nprim * ndim)%nat -> (j < nprim)%nat -> (k < ndim)%nat ->
  exists a b, nth_error (arrange_eigenvectors ndim nprim ev) i = Some a /\ nth_error a j = Some b /\ nth_error b k = Some (ev (j * ndim + k)%nat i).
Proof.
  intros Hi Hj Hk. eexists _, _. split; [apply nth_error_seq_map, Hi|]. split; [cbv beta; apply nth_error_seq_map, Hj|]. cbv beta. apply (nth_error_seq_map (fun k => ev (j * ndim + k)%nat i)), Hk.
Qed.
Lemma branch_flat ndim nprim (ev : nat -> nat -> A) i : concat (map (fun j => map (fun k => ev (j * ndim + k)%nat i) (seq 0 ndim)) (seq 0 nprim)) = map (fun r => ev r i) (seq 0 (nprim * ndim)).
Proof.
  induction nprim as [|n IH]; [reflexivity|]. rewrite seq_S, map_app, concat_app, IH. cbn [map concat]. rewrite app_nil_r.
  replace (S n * ndim)%nat with (n * ndim + ndim)%nat by lia. rewrite seq_app, map_app. f_equal. cbn [plus].
  rewrite <- (map_map (fun k => (n * ndim + k)%nat) (fun r => ev r i)). f_equal. clear. generalize (n * ndim)%nat as s. induction ndim as [|m IHm]; intros s; [reflexivity|]. cbn [seq map]. rewrite Nat.add_0_r. f_equal.
  rewrite <- (IHm (S s)). rewrite <- seq_shift, map_map. apply map_ext. intros k. lia.
Qed.
Lemma unarranged ndim nprim (ev : nat -> nat -> A) : exists m, unarrange_eigenvectors ndim nprim (arrange_eigenvectors ndim nprim ev) = Some m /\
  forall r c, (r < nprim * ndim)%nat -> (c < nprim * ndim)%nat -> m r c = Some (ev r c).
Proof.
  unfold unarrange_eigenvectors, arrange_eigenvectors. rewrite map_map.
  rewrite (map_ext _ (fun c => map (fun r => ev r c) (seq 0 (nprim * ndim)))) by (intros; apply branch_flat).
  set (rows := map _ _). assert (L : forall x, In x rows -> length x = (nprim * ndim)%nat). { intros x Hx. apply in_map_iff in Hx. destruct Hx as (c & <- & _). rewrite map_length. apply seq_length. }
  rewrite (concat_length_const _ _ L). unfold rows at 1. rewrite map_length, seq_length. rewrite (Nat.mul_comm ndim nprim), Nat.eqb_refl.
  eexists. split; [reflexivity|]. intros r c Hr Hc. cbv beta. rewrite (concat_nth_const (nprim * ndim) rows L c r (map (fun r => ev r c) (seq 0 (nprim * ndim)))); [|apply (nth_error_seq_map (fun c => map (fun r => ev r c) (seq 0 (nprim * ndim)))), Hc|exact Hr].
  apply (nth_error_seq_map (fun r => ev r c)), Hr.
Qed.
End E.

(* rounding *)
Lemma mod1_zero_iff x : mod1_zero x = true <-> exists m : Z, x = IZR m.
Proof.
  unfold mod1_zero. destruct (Req_EM_T (x - IZR (rfloor x)) 0) as [F|F]; split; try congruence.
  - intros _. exists (rfloor x). lra.
  - intros [m ->]. exfalso. apply F. rewrite rfloor_IZR. ring.
Qed.
Lemma around_even_tie (n : Z) x : Z.even n = true -> Rabs (x - IZR n) <= 1/2 -> around x = n.
Proof.
  intros En H. assert (B : - (1/2) <= x - IZR n <= 1/2) by (unfold Rabs in H; destruct (Rcase_abs (x - IZR n)); lra).
  destruct (Rlt_dec (- (1/2)) (x - IZR n)) as [F1|F1].
  - destruct (Rlt_dec (x - IZR n) (1/2)) as [F2|F2]; [apply around_nearest; lra|].
    assert (Ex : x = IZR n + 1/2) by lra. unfold around. rewrite (rfloor_unique x n) by lra. destruct (Rlt_dec (x - IZR n) (1/2)); [lra|]. destruct (Rlt_dec (1/2) (x - IZR n)); [lra|]. rewrite En. reflexivity.
  - assert (Ex : x = IZR (n - 1) + 1/2) by (rewrite minus_IZR; lra). unfold around. rewrite (rfloor_unique x (n - 1)) by lra. destruct (Rlt_dec (x - IZR (n - 1)) (1/2)); [lra|]. destruct (Rlt_dec (1/2) (x - IZR (n - 1))); [lra|].
    replace (Z.even (n - 1)) with (negb (Z.even n)) by (rewrite Z.even_sub; cbn; destruct (Z.even n); reflexivity). rewrite En. cbn [negb]. lia.
Qed.
Lemma around4_integer x : (exists m : Z, around4 x = IZR m) <-> near_integer (1/20000) x.
Proof.
  unfold around4, near_integer. split; intros [m H]; exists m.
  - assert (E : IZR (around (x * 10000)) = IZR m * 10000) by lra. assert (B := around_half (x * 10000)). rewrite E in B. unfold Rabs. destruct (Rcase_abs (x - IZR m)); lra.
  - assert (E : around (x * 10000) = (m * 10000)%Z).
    { apply around_even_tie; [rewrite Z.even_mul; apply orb_true_r|]. rewrite mult_IZR. replace (x * 10000 - IZR m * 10000) with (10000 * (x - IZR m)) by ring. rewrite Rabs_mult, (Rabs_right 10000) by lra. lra. }
    rewrite E, mult_IZR. field.
Qed.
Lemma check_iff inv pmat nx ny nz q : check_commensurate inv pmat nx ny nz q = true <->
  let t := vmul q (inv pmat) in near_integer (1/20000) (vx t * INR nx) /\ near_integer (1/20000) (vy t * INR ny) /\ near_integer (1/20000) (vz t * INR nz).
Proof. unfold check_commensurate. cbv zeta. rewrite !andb_true_iff, !mod1_zero_iff, !around4_integer. tauto. Qed.

(** the cartesian wave vector times a translation, in reduced coordinates *)
Lemma mT_mT m : mT (mT m) = m. Proof. destruct m as [[] [] []]. reflexivity. Qed.
Lemma mT_mmul a b : mT (mmul a b) = mmul (mT b) (mT a). Proof. vec_ring. Qed.
Lemma vdot_vmul a b m : vdot (vmul a m) b = vdot a (vmul b (mT m)). Proof. unfold vdot, vmul, mT, vadd, vscale; cbn [vx vy vz r0 r1 r2]; ring. Qed.
Lemma wave_dot inv cell pmat q w : is_inverse (inv pmat) pmat -> is_inverse (inv (primitive_cell cell pmat)) (primitive_cell cell pmat) ->
  vdot (get_q_vector inv (primitive_cell cell pmat) q) (vmul w cell) = 2 * PI * vdot (vmul q (inv pmat)) w.
Proof.
  intros [Ip1 Ip2] [Ic1 Ic2]. unfold get_q_vector. set (pc := primitive_cell cell pmat) in *. set (ic := inv pc) in *. set (ip := inv pmat) in *.
  replace (vmul q (mscale (2 * PI) (mT ic))) with (vscale (2 * PI) (vmul q (mT ic))) by (apply vec_eq; unfold vmul, mscale, vadd, vscale; cbn [vx vy vz r0 r1 r2]; ring).
  replace (vdot (vscale (2 * PI) (vmul q (mT ic))) (vmul w cell)) with (2 * PI * vdot (vmul q (mT ic)) (vmul w cell)) by (unfold vdot, vscale; cbn [vx vy vz]; ring). f_equal.
  rewrite vdot_vmul, mT_mT. rewrite vdot_vmul. f_equal. rewrite vmul_mmul. f_equal.
  (* cell = (mT pmat)^-1 pc *)
  assert (E : pc = mmul (mT pmat) cell) by (unfold pc, primitive_cell; rewrite mT_mmul, mT_mT; reflexivity).
  assert (T : mmul (mT ip) (mT pmat) = mid) by (rewrite <- mT_mmul, Ip1; reflexivity).
  transitivity (mmul (mmul (mT ip) pc) ic); [f_equal; rewrite E, <- mmul_assoc, T, mmul_id_l; reflexivity|]. rewrite mmul_assoc, Ic1, mmul_id_r. reflexivity.
Qed.
Lemma periodic_iff inv cell pmat q nx ny nz : is_inverse (inv pmat) pmat -> is_inverse (inv (primitive_cell cell pmat)) (primitive_cell cell pmat) ->
  periodic (get_q_vector inv (primitive_cell cell pmat) q) cell nx ny nz <->
  let t := vmul q (inv pmat) in (exists m : Z, vx t * INR nx = IZR m) /\ (exists m : Z, vy t * INR ny = IZR m) /\ (exists m : Z, vz t * INR nz = IZR m).
Proof.
  intros Hp Hc. cbv zeta. set (t := vmul q (inv pmat)). unfold periodic, translation.
  assert (P2 : 2 * PI <> 0) by (assert (X := PI_RGT_0); lra).
  assert (K : forall a b c m, vdot (get_q_vector inv (primitive_cell cell pmat) q) (vmul (V3 (IZR a * INR nx) (IZR b * INR ny) (IZR c * INR nz)) cell) = 2 * PI * IZR m <-> vx t * INR nx * IZR a + vy t * INR ny * IZR b + vz t * INR nz * IZR c = IZR m).
  { intros a b c m. rewrite wave_dot by assumption. fold t. replace (vdot t _) with (vx t * INR nx * IZR a + vy t * INR ny * IZR b + vz t * INR nz * IZR c) by (unfold vdot; cbn [vx vy vz]; ring). split; intros E; [apply (Rmult_eq_reg_l (2 * PI)); assumption|rewrite E; reflexivity]. }
  split.
  - intros H. split; [|split].
    + destruct (H 1%Z 0%Z 0%Z) as [m Hm]. apply K in Hm. exists m. lra.
    + destruct (H 0%Z 1%Z 0%Z) as [m Hm]. apply K in Hm. exists m. lra.
    + destruct (H 0%Z 0%Z 1%Z) as [m Hm]. apply K in Hm. exists m. lra.
  - intros ([m1 E1] & [m2 E2] & [m3 E3]) a b c. exists (m1 * a + m2 * b + m3 * c)%Z. apply K. rewrite E1, E2, E3, !plus_IZR, !mult_IZR. reflexivity.
Qed.
(* equivalent points *)
Lemma all_nonneg_iff v : all_nonneg v = true <-> 0 <= vx v /\ 0 <= vy v /\ 0 <= vz v.
Proof. unfold all_nonneg. destruct (Rle_dec 0 (vx v)); [|split; [discriminate|tauto]]. destruct (Rle_dec 0 (vy v)); [|split; [discriminate|tauto]]. destruct (Rle_dec 0 (vz v)); [|split; [discriminate|tauto]]. tauto. Qed.
Lemma equivalent_spec inv pmat ops q r : get_equivalent_q_points_by_symmetry inv pmat ops q r ->
  NoDup r /\ forall x, In x r <-> x = q \/ exists o, In o ops /\ x = vmul q (operation_matrix_q inv pmat o) /\ 0 <= vx x /\ 0 <= vy x /\ 0 <= vz x.
Proof.
  intros P. unfold get_equivalent_q_points_by_symmetry, equivalent_points in P. split.
  - apply (Permutation_NoDup (Permutation_sym P)), NoDup_nodup.
  - intros x. split.
    + intros H. apply (Permutation_in _ P) in H. apply nodup_In in H. destruct H as [<-|H]; [left; reflexivity|right]. apply filter_In in H. destruct H as [H N]. apply in_map_iff in H. destruct H as (o & <- & Ho). exists o. split; [exact Ho|]. split; [reflexivity|]. apply all_nonneg_iff, N.
    + intros H. apply (Permutation_in _ (Permutation_sym P)), nodup_In. destruct H as [->|(o & Ho & -> & N)]; [left; reflexivity|right]. apply filter_In. split; [apply (in_map (fun o => vmul q (operation_matrix_q inv pmat o))), Ho|apply all_nonneg_iff, N].
Qed.
Lemma conj_id inv pmat : is_inverse (inv pmat) pmat -> operation_matrix_q inv pmat mid = mid.
Proof. intros [_ H]. unfold operation_matrix_q. change (mT mid) with mid. rewrite mmul_id_r. exact H. Qed.
(** in coordinates of the conventional cell the image is the rotated wave vector *)
Lemma image_conventional inv pmat o q : is_inverse (inv pmat) pmat -> vmul (vmul q (operation_matrix_q inv pmat o)) (inv pmat) = mulv o (vmul q (inv pmat)).
Proof.
  intros [H1 _]. unfold operation_matrix_q. rewrite vmul_mmul. rewrite (mmul_assoc (mmul (inv pmat) (mT o)) pmat (inv pmat)), H1, mmul_id_r. rewrite <- vmul_mmul. rewrite vmul_mT, mT_mT. reflexivity.
Qed.
(* eigenvalues *)
Lemma eigenvalue_of_frequency c l : 0 < c -> eigenvalue c (np_sign l * sqrt (Rabs l) * c) = l.
Proof.
  intros Hc. unfold eigenvalue. cbv zeta. replace (np_sign l * sqrt (Rabs l) * c / c) with (np_sign l * sqrt (Rabs l)) by (field; lra).
  assert (S : sqrt (Rabs l) * sqrt (Rabs l) = Rabs l) by (apply sqrt_sqrt, Rabs_pos).
  unfold np_sign. destruct (Rlt_dec 0 l) as [F|F].
  - assert (P : 0 < sqrt (Rabs l)) by (apply sqrt_lt_R0, Rabs_pos_lt; lra). rewrite Rmult_1_l. destruct (Rlt_dec 0 (sqrt (Rabs l))); [|lra]. rewrite S, Rabs_right by lra. ring.
  - destruct (Rlt_dec l 0) as [G|G].
    + assert (P : 0 < sqrt (Rabs l)) by (apply sqrt_lt_R0, Rabs_pos_lt; lra). destruct (Rlt_dec 0 (-1 * sqrt (Rabs l))); [lra|]. destruct (Rlt_dec (-1 * sqrt (Rabs l)) 0); [|lra].
      replace (-1 * sqrt (Rabs l) * (-1 * sqrt (Rabs l)) * -1) with (- (sqrt (Rabs l) * sqrt (Rabs l))) by ring. rewrite S, Rabs_left by lra. ring.
    + rewrite Rmult_0_l. ring_simplify. lra.
Qed.
Lemma frequency_of_eigenvalue c f : 0 < c -> np_sign (eigenvalue c f) * sqrt (Rabs (eigenvalue c f)) * c = f.
Proof.
  intros Hc. unfold eigenvalue. cbv zeta. set (x := f / c). assert (Ef : f = x * c) by (unfold x; field; lra). rewrite Ef at 1. clearbody x.
  assert (G : np_sign (x * x * np_sign x) * sqrt (Rabs (x * x * np_sign x)) = x); [|rewrite G; reflexivity].
  unfold np_sign at 2 3. destruct (Rlt_dec 0 x) as [F|F].
  - rewrite Rmult_1_r. unfold np_sign. destruct (Rlt_dec 0 (x * x)); [|nra]. rewrite Rabs_right by nra. rewrite sqrt_square by lra. ring.
  - destruct (Rlt_dec x 0) as [G|G].
    + unfold np_sign. destruct (Rlt_dec 0 (x * x * -1)); [nra|]. destruct (Rlt_dec (x * x * -1) 0); [|nra]. rewrite Rabs_left by lra. replace (- (x * x * -1)) with ((- x) * (- x)) by ring. rewrite sqrt_square by lra. ring.
    + assert (x = 0) by lra. subst x. rewrite Rmult_0_r, Rabs_R0, sqrt_0. ring.
Qed.
