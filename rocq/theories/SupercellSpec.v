(** Specification vocabulary for supercells, independent of the code's loops. *)
From Verif Require Export Base.
Open Scope nat_scope.

(** Position of the image of a point p in the cell (x,y,z): p + x a + y b + z c, where a, b, c
    are the rows of the cell. *)
Definition image (cell : mat) (p : vec) (x y z : nat) : vec :=
  vadd p (vadd (vadd (vscale (INR x) (r0 cell)) (vscale (INR y) (r1 cell))) (vscale (INR z) (r2 cell))).

(** The supercell lattice: rows scaled. *)
Definition scaled_rows (cell : mat) (nx ny nz : nat) : mat :=
  M3 (vscale (INR nx) (r0 cell)) (vscale (INR ny) (r1 cell)) (vscale (INR nz) (r2 cell)).
