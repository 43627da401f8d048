(** Shared vocabulary: 3-vectors and 3x3 matrices over the reals.
    These are the mathematical objects numpy arrays of shape (3,) and (3,3) stand for;
    floating point rounding is not represented. *)
From Coq Require Export Reals List Lia Lra Arith ZArith Bool.
Export ListNotations.
Open Scope R_scope.

Record vec := V3 { vx : R; vy : R; vz : R }.
(** A matrix is the triple of its rows (numpy convention; lattice vectors are rows). *)
Record mat := M3 { r0 : vec; r1 : vec; r2 : vec }.

Definition vzero := V3 0 0 0.
Definition vadd (a b : vec) := V3 (vx a + vx b) (vy a + vy b) (vz a + vz b).
Definition vsub (a b : vec) := V3 (vx a - vx b) (vy a - vy b) (vz a - vz b).
Definition vscale (k : R) (a : vec) := V3 (k * vx a) (k * vy a) (k * vz a).
Definition vdot (a b : vec) := vx a * vx b + vy a * vy b + vz a * vz b.
Definition vnorm2 (a : vec) := vdot a a.
Definition vnorm (a : vec) := sqrt (vnorm2 a).

Definition mT (m : mat) :=
  M3 (V3 (vx (r0 m)) (vx (r1 m)) (vx (r2 m)))
     (V3 (vy (r0 m)) (vy (r1 m)) (vy (r2 m)))
     (V3 (vz (r0 m)) (vz (r1 m)) (vz (r2 m))).
(** np.dot(v, m): row vector times matrix *)
Definition vmul (v : vec) (m : mat) : vec :=
  vadd (vadd (vscale (vx v) (r0 m)) (vscale (vy v) (r1 m))) (vscale (vz v) (r2 m)).
(** np.dot(m, v): matrix times column vector *)
Definition mulv (m : mat) (v : vec) : vec := V3 (vdot (r0 m) v) (vdot (r1 m) v) (vdot (r2 m) v).
(** np.dot(a, b) *)
Definition mmul (a b : mat) : mat := M3 (vmul (r0 a) b) (vmul (r1 a) b) (vmul (r2 a) b).
Definition mid : mat := M3 (V3 1 0 0) (V3 0 1 0) (V3 0 0 1).
Definition mdiag (a b c : R) : mat := M3 (V3 a 0 0) (V3 0 b 0) (V3 0 0 c).
Definition mdet (m : mat) : R :=
  vx (r0 m) * (vy (r1 m) * vz (r2 m) - vz (r1 m) * vy (r2 m))
  - vy (r0 m) * (vx (r1 m) * vz (r2 m) - vz (r1 m) * vx (r2 m))
  + vz (r0 m) * (vx (r1 m) * vy (r2 m) - vy (r1 m) * vx (r2 m)).
Definition madd (a b : mat) := M3 (vadd (r0 a) (r0 b)) (vadd (r1 a) (r1 b)) (vadd (r2 a) (r2 b)).
Definition mscale (k : R) (a : mat) := M3 (vscale k (r0 a)) (vscale k (r1 a)) (vscale k (r2 a)).

(** [is_inverse b a]: b is the two-sided inverse of a (what numpy.linalg.inv returns). *)
Definition is_inverse (b a : mat) : Prop := mmul a b = mid /\ mmul b a = mid.

Lemma vec_eq a b : vx a = vx b -> vy a = vy b -> vz a = vz b -> a = b.
Proof. destruct a, b; simpl; intros; subst; reflexivity. Qed.
Lemma mat_eq a b : r0 a = r0 b -> r1 a = r1 b -> r2 a = r2 b -> a = b.
Proof. destruct a, b; simpl; intros; subst; reflexivity. Qed.

Ltac vec_unfold :=
  unfold mmul, mulv, vmul, mT, mdiag, mid, madd, mscale, vadd, vsub, vscale, vdot, vzero, vnorm2 in *; simpl in *.
Ltac vec_ring := intros; vec_unfold; repeat (first [apply mat_eq | apply vec_eq]; simpl); try ring.

Lemma vmul_mmul v a b : vmul (vmul v a) b = vmul v (mmul a b).
Proof. vec_ring. Qed.
Lemma mulv_mmul v a b : mulv a (mulv b v) = mulv (mmul a b) v.
Proof. vec_ring. Qed.
Lemma vmul_mT v m : vmul v m = mulv (mT m) v.
Proof. vec_ring. Qed.
Lemma mulv_mT v m : mulv m v = vmul v (mT m).
Proof. vec_ring. Qed.
Lemma vmul_mid v : vmul v mid = v.
Proof. vec_ring. Qed.
Lemma mulv_mid v : mulv mid v = v.
Proof. vec_ring. Qed.
Lemma mmul_assoc a b c : mmul (mmul a b) c = mmul a (mmul b c).
Proof. vec_ring. Qed.
Lemma mmul_id_l a : mmul mid a = a.
Proof. vec_ring. Qed.
Lemma mmul_id_r a : mmul a mid = a.
Proof. vec_ring. Qed.
Lemma mT_mT a : mT (mT a) = a.
Proof. vec_ring. Qed.
Lemma mT_mmul a b : mT (mmul a b) = mmul (mT b) (mT a).
Proof. vec_ring. Qed.
Lemma mT_mid : mT mid = mid.
Proof. vec_ring. Qed.
Lemma vadd_comm a b : vadd a b = vadd b a. Proof. vec_ring. Qed.
Lemma vadd_assoc a b c : vadd (vadd a b) c = vadd a (vadd b c). Proof. vec_ring. Qed.
Lemma vadd_0_r a : vadd a vzero = a. Proof. vec_ring. Qed.
Lemma vadd_0_l a : vadd vzero a = a. Proof. vec_ring. Qed.

Lemma is_inverse_mT b a : is_inverse b a -> is_inverse (mT b) (mT a).
Proof.
  intros [H1 H2]; split; rewrite <- mT_mmul; [rewrite H2 | rewrite H1]; apply mT_mid.
Qed.
Lemma is_inverse_sym b a : is_inverse b a -> is_inverse a b.
Proof. intros [H1 H2]; split; assumption. Qed.
Lemma is_inverse_unique b c a : is_inverse b a -> is_inverse c a -> b = c.
Proof.
  intros [H1 H2] [H3 H4].
  rewrite <- (mmul_id_r b), <- H3, <- mmul_assoc, H2, mmul_id_l. reflexivity.
Qed.
