(** C10-C13: displacements from reference positions with periodic boundary conditions. *)
From Verif Require Import DisplacementsModel DisplacementsSpec DisplacementsProofs DetBridge.
From mathcomp Require matrix.
Open Scope R_scope.

(** C10.  In every dimension n >= 2, for every cell with non-zero determinant. *)
Theorem C10_minimum_image :
  forall n cell p x, (2 <= n)%nat -> Determinant n (pymatrix_to_c_array_real n cell) <> 0 ->
  exists m : nat -> Z,
  (forall k, (k < n)%nat ->
     atomic_displacement n cell p x k = x k - p k - lattice_combination n cell (fun j => IZR (m j)) k) /\
  (exists f, forall k, (k < n)%nat -> atomic_displacement n cell p x k = lattice_combination n cell f k) /\
  (forall f, (forall k, (k < n)%nat -> atomic_displacement n cell p x k = lattice_combination n cell f k) ->
   forall j, (j < n)%nat -> -(1/2) <= f j <= 1/2).
Proof. exact minimum_image. Qed.
Print Assumptions C10_minimum_image.
(** every step of the trajectory is treated separately, in order *)
Theorem C10_all_steps :
  forall n cell p tr i, nth_error (atomic_displacements n cell p tr) i = option_map (atomic_displacement n cell p) (nth_error tr i).
Proof. intros n cell p tr. induction tr as [|x tr IH]; intros [|i]; try reflexivity. apply IH. Qed.
Print Assumptions C10_all_steps.

(** C11.  Jumps by lattice vectors are invisible unless a fractional coordinate is exactly at a tie. *)
Theorem C11_jumps_invisible :
  forall n cell p x (m : nat -> Z), (2 <= n)%nat -> Determinant n (pymatrix_to_c_array_real n cell) <> 0 ->
  (forall f, (forall k, (k < n)%nat -> x k - p k = lattice_combination n cell f k) -> forall j, (j < n)%nat -> ~ tie (f j)) ->
  forall k, (k < n)%nat ->
  atomic_displacement n cell p (fun k => x k + lattice_combination n cell (fun j => IZR (m j)) k) k = atomic_displacement n cell p x k.
Proof. exact periodic. Qed.
Print Assumptions C11_jumps_invisible.
(** non-zero determinant means independent lattice vectors, so the coefficients f are unique *)
Theorem C11_coefficients_unique :
  forall n cell, (2 <= n)%nat -> Determinant n (pymatrix_to_c_array_real n cell) <> 0 -> nonsingular n cell.
Proof. exact determinant_independent. Qed.
Print Assumptions C11_coefficients_unique.

(** C12.  Both products with the cofactor inverse are the identity, in every dimension n >= 2. *)
Theorem C12_cofactor_inverse :
  forall n a, (2 <= n)%nat -> Determinant n a <> 0 ->
  forall i j, (i < n)%nat -> (j < n)%nat ->
  matrix_multiplication n (matrix_inverse n a) a i j = (if Nat.eqb i j then 1 else 0) /\
  matrix_multiplication n a (matrix_inverse n a) i j = (if Nat.eqb i j then 1 else 0).
Proof. intros n a Hn D i j Hi Hj. split; [apply inverse_left_nat|apply inverse_right_nat]; assumption. Qed.
Print Assumptions C12_cofactor_inverse.
(** the determinant routine equals the determinant: mathcomp's (Leibniz formula) for every n >= 1,
    and the rule of Sarrus for n = 3 *)
Theorem C12_determinant :
  forall n a, Determinant (S n) a = matrix.determinant (mx (S n) a).
Proof. exact Determinant_det. Qed.
Print Assumptions C12_determinant.
Theorem C12_determinant_sarrus :
  forall a b c d e f g h i, Determinant 3 (mget (M3 (V3 a b c) (V3 d e f) (V3 g h i)))
  = a*e*i + b*f*g + c*d*h - c*e*g - b*d*i - a*f*h.
Proof. intros. rewrite Determinant3. unfold mdet; cbn. ring. Qed.
Print Assumptions C12_determinant_sarrus.
Theorem C12_inverse_3x3 : forall m, mdet m <> 0 -> is_inverse (mkmat (matrix_inverse 3 (mget m))) m.
Proof. exact inverse3. Qed.
Print Assumptions C12_inverse_3x3.
(** In dimension 1 the "inverse" is identically zero (not an inverse). *)
Theorem C12_dimension_one_refuted : forall a i j, matrix_inverse 1 a i j = 0.
Proof. exact inverse1_zero. Qed.
Print Assumptions C12_dimension_one_refuted.

(** non-trivial cell: hexagonal-like, in dimension 3 *)
Example C10_nonvacuous : let cell := M3 (V3 2 0 0) (V3 (-1) (17/10) 0) (V3 0 0 5) in
  Determinant 3 (pymatrix_to_c_array_real 3 (buffer cell)) <> 0 /\
  forall f, (forall k, (k < 3)%nat -> vget (V3 3 0 1) k - 0 = lattice_combination 3 (buffer cell) f k) ->
   (f 0%nat = 3/2 /\ f 1%nat = 0 /\ f 2%nat = 1/5).
Proof.
  intros cell. split.
  - change (pymatrix_to_c_array_real 3 (buffer cell)) with (Cc 3 (buffer cell)). rewrite Determinant3_buffer. unfold cell, mdet; cbn. lra.
  - intros f H. assert (H0 := H 0%nat ltac:(lia)). assert (H1 := H 1%nat ltac:(lia)). assert (H2 := H 2%nat ltac:(lia)).
    unfold lattice_combination, cell, buffer in *. cbn in *. lra.
Qed.

(** C13.  The Python routine agrees with C for symmetric cells (in particular orthorhombic boxes)
    away from ties; for every other cell it is wrong already for a jump by lattice vectors. *)
Theorem C13_python_c_agree_partial :
  forall inv cell p x, mT cell = cell -> mdet cell <> 0 -> is_inverse (inv cell) cell ->
  (forall f, vsub x p = vmul f cell -> ~ tie (vx f) /\ ~ tie (vy f) /\ ~ tie (vz f)) ->
  relativize_py inv cell p x = displacement3 cell p x.
Proof. exact py_c_agree. Qed.
Print Assumptions C13_python_c_agree_partial.
Theorem C13_python_c_disagree_refuted :
  forall inv cell p, is_inverse (inv cell) cell -> is_inverse (inv (mT cell)) (mT cell) -> mdet cell <> 0 -> mT cell <> cell ->
  exists x, relativize_py inv cell p x <> vzero /\ displacement3 cell p x = vzero.
Proof.
  intros inv cell p H1 H2 D N. destruct (py_differs inv cell p H1 N) as [i [k [Hi H]]].
  exists (vadd p (vmul (vscale (INR k) (unit3 i)) cell)). split; [exact H|].
  apply (c_zero cell inv p); try assumption.
  exists (if Nat.eqb i 0 then Z.of_nat k else 0%Z), (if Nat.eqb i 1 then Z.of_nat k else 0%Z), (if Nat.eqb i 2 then Z.of_nat k else 0%Z).
  rewrite INR_IZR_INZ. unfold vscale, unit3; cbn.
  apply vec_eq; cbn; [destruct (Nat.eqb i 0)|destruct (Nat.eqb i 1)|destruct (Nat.eqb i 2)]; ring.
Qed.
Print Assumptions C13_python_c_disagree_refuted.
Example C13_nonvacuous :
  let c := M3 (V3 1 0 0) (V3 1 1 0) (V3 0 0 1) in
  mdet c <> 0 /\ mT c <> c /\ is_inverse (M3 (V3 1 0 0) (V3 (-1) 1 0) (V3 0 0 1)) c /\ mT mid = mid.
Proof.
  intros c. split; [unfold c, mdet; cbn; lra|]. split; [unfold c, mT; cbn; intros E; injection E; intros; lra|].
  split; [|apply mT_mid]. split; unfold c; vec_ring.
Qed.
