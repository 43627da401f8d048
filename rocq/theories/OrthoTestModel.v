(** Model of the option test_orthonormal of obtain_eigenvectors_and_frequencies (dynaphopy/interface/phonopy_link.py:86-89, 172-198).  Exact complex arithmetic;
    phonopy's matrix of eigenvectors is a parameter; what is printed is not modelled.  Division by a zero norm (nan in numpy) is left to the total division of
    the reals: the theorems only speak about matrices without zero rows. *)
From Verif Require Export PhonopyLinkModel ProjectionModel.
From Coquelicot Require Export Complex.
Open Scope R_scope.

(** np.linalg.norm of the row r of an n x n matrix *)
Fixpoint sum_squares (n : nat) (f : nat -> C) : R := match n with 0%nat => 0 | S n => sum_squares n f + Cmod (f n) ^ 2 end.
Definition row_norm (n : nat) (ev : nat -> nat -> C) (r : nat) : R := sqrt (sum_squares n (ev r)).
(** dynaphopy/interface/phonopy_link.py:86-89 eigenvectors_normalization: eigenvector[i, :] = eigenvector[i, :]/norm(eigenvector[i, :]), one row after the other, in place *)
Definition normalise_row (n : nat) (ev : nat -> nat -> C) (i : nat) : nat -> nat -> C :=
  let x := row_norm n ev i in fun r c => if (r =? i)%nat then Cdiv (ev r c) (RtoC x) else ev r c.
Definition eigenvectors_normalization (n : nat) (ev : nat -> nat -> C) : nat -> nat -> C := fold_left (normalise_row n) (seq 0 n) ev.
(** dynaphopy/interface/phonopy_link.py:172-198: the arranged eigenvectors (three dimensions) *)
Definition obtain_eigenvectors (nprim : nat) (test_orthonormal : bool) (ev : nat -> nat -> C) : list (list (list C)) :=
  arrange_eigenvectors 3 nprim (if test_orthonormal then eigenvectors_normalization (nprim * 3) ev else ev).
