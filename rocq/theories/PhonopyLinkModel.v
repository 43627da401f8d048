(** Model of the numerical glue of dynaphopy/interface/phonopy_link.py and of the wave vector methods of Quasiparticle.
    phonopy itself is not modelled: its eigenvectors, symmetry operations and dynamical matrices are inputs.  Exact arithmetic. *)
From Verif Require Export Base Rounding.
From Coq Require Import Permutation.
Open Scope R_scope.

Section Eigenvectors.
Context {A : Type}.
(** dynaphopy/interface/phonopy_link.py:189-192: arranged_ev[i][j][k] = eigenvectors[j*number_of_dimensions+k, i] *)
Definition arrange_eigenvectors (ndim nprim : nat) (ev : nat -> nat -> A) : list (list (list A)) :=
  map (fun i => map (fun j => map (fun k => ev (j * ndim + k)%nat i) (seq 0 ndim)) (seq 0 nprim)) (seq 0 (nprim * ndim)).
(** dynaphopy/interface/phonopy_link.py:375-376: eigenvector.reshape(size, size, order='C').T; None: reshape raises ValueError.  The result is
    indexed [row][column]. *)
Definition unarrange_eigenvectors (ndim nprim : nat) (arranged : list (list (list A))) : option (nat -> nat -> option A) :=
  let size := (ndim * nprim)%nat in
  let flat := concat (map (@concat A) arranged) in
  if (length flat =? size * size)%nat then Some (fun r c => nth_error flat (c * size + r)%nat) else None.
End Eigenvectors.

(** dynaphopy/interface/phonopy_link.py:383-384: eigenvalues passed to phonopy *)
Definition np_sign (x : R) : R := if Rlt_dec 0 x then 1 else if Rlt_dec x 0 then -1 else 0.
Definition eigenvalue (unit_conversion frequency : R) : R := let f := frequency / unit_conversion in f * f * np_sign f.

(** dynaphopy/interface/phonopy_link.py:315-319: the q-points of one band segment; band_resolution >= 1 (0 divides by zero) *)
Definition band_path (q_start q_end : vec) (band_resolution : nat) : list vec :=
  map (fun i => vadd q_start (vscale (INR i) (vscale (/ INR band_resolution) (vsub q_end q_start)))) (seq 0 (band_resolution + 1)).

Section Q.
Context (inv : mat -> mat).   (* np.linalg.inv *)
(** dynaphopy/interface/phonopy_link.py:353-354 *)
Definition operation_matrix_q (pmat operation : mat) : mat := mmul (mmul (inv pmat) (mT operation)) pmat.
Definition vec_dec (a b : vec) : {a = b} + {a <> b}.
Proof. destruct a as [a1 a2 a3], b as [b1 b2 b3]. destruct (Req_EM_T a1 b1) as [->|N]; [|right; congruence]. destruct (Req_EM_T a2 b2) as [->|N]; [|right; congruence]. destruct (Req_EM_T a3 b3) as [->|N]; [left; reflexivity|right; congruence]. Defined.
(** (q_point_test >= 0).all() *)
Definition all_nonneg (v : vec) : bool := if Rle_dec 0 (vx v) then if Rle_dec 0 (vy v) then if Rle_dec 0 (vz v) then true else false else false else false.
(** dynaphopy/interface/phonopy_link.py:343-363: tot_points, then the elements of a Python set in an unspecified order, so any reordering of the
    list without repetitions *)
Definition equivalent_points (pmat : mat) (operations : list mat) (q : vec) : list vec :=
  nodup vec_dec (q :: filter all_nonneg (map (fun o => vmul q (operation_matrix_q pmat o)) operations)).
Definition get_equivalent_q_points_by_symmetry (pmat : mat) (operations : list mat) (q : vec) (result : list vec) : Prop :=
  Permutation result (equivalent_points pmat operations q).

(** np.around(x, decimals=4), np.mod(x, 1) == 0 *)
Definition around4 (x : R) : R := IZR (around (x * 10000)) / 10000.
Definition mod1_zero (x : R) : bool := if Req_EM_T (x - IZR (rfloor x)) 0 then true else false.
(** dynaphopy/__init__.py:610-623 check_commensurate *)
Definition check_commensurate (pmat : mat) (nx ny nz : nat) (q : vec) : bool :=
  let t := vmul q (inv pmat) in
  (mod1_zero (around4 (vx t * INR nx)) && mod1_zero (around4 (vy t * INR ny)) && mod1_zero (around4 (vz t * INR nz)))%bool.
(** dynaphopy/__init__.py:167-169 get_q_vector *)
Definition get_q_vector (primitive_cell : mat) (reduced : vec) : vec := vmul reduced (mscale (2 * PI) (mT (inv primitive_cell))).
(** dynaphopy/atoms.py:113-116 get_primitive_cell from the primitive matrix *)
Definition primitive_cell (cell pmat : mat) : mat := mT (mmul (mT cell) pmat).
End Q.
