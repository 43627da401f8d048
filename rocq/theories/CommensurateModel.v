(** Model of Structure.get_commensurate_points (dynaphopy/atoms.py:336-356) in exact real arithmetic; numpy.arange and numpy.around are those of Rounding.v
    (np.around(x, decimals=5) is around(10^5 x)/10^5).  The inverse of the primitive matrix is an argument. *)
From Verif Require Export Base Rounding.
Open Scope R_scope.

(** numpy.arange(start, stop, step): ceil((stop - start)/step) values *)
Definition arange (start stop step : R) : list R := map (fun k => start + INR k * step) (seq 0 (Z.to_nat (rceil ((stop - start) / step)))).
(** dynaphopy/atoms.py:345-347 *)
Definition axis (n : nat) : list R := arange (- (1/2)) (1/2) (1 / (INR n * 2)).
(** dynaphopy/atoms.py:349 *)
Definition around5 (x : R) : R := IZR (around (x * 100000)) / 100000.
(** dynaphopy/atoms.py:354: np.equal(np.mod(x, 1), 0) *)
Definition is_integer (x : R) : bool := if Req_EM_T (x - IZR (rfloor x)) 0 then true else false.
(** 336-356; supercell is the list of the three multiplicities *)
Definition get_commensurate_points (primitive_matrix_inverse : mat) (n1 n2 n3 : nat) : list vec :=
  flat_map (fun k1 => flat_map (fun k2 => flat_map (fun k3 =>
    let q_point := V3 (around5 k1) (around5 k2) (around5 k3) in
    let q_point_unit_cell := vmul q_point primitive_matrix_inverse in
    let scaled := V3 (vx q_point_unit_cell * INR n1 * 2) (vy q_point_unit_cell * INR n2 * 2) (vz q_point_unit_cell * INR n3 * 2) in
    if is_integer (vx scaled) && is_integer (vy scaled) && is_integer (vz scaled) then [q_point] else [])
    (axis n3)) (axis n2)) (axis n1).
