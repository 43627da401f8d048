(** Burg's recursion as a mathematical definition (no arrays). *)
From Verif Require Export MemModel.
Open Scope R_scope.

(** sum of f j for j = a, ..., a+n-1 *)
Fixpoint sum_from (a n : nat) (f : nat -> R) : R := match n with O => 0 | S m => f a + sum_from (S a) m f end.
Definition mean_square (x : nat -> R) (N : nat) : R := sum_from 1 N (fun j => x j ^ 2) / INR N.

(** state after order k: forward and backward prediction errors, prediction coefficients a_1..a_k,
    mean square discrepancy; [b_dead] when the recursion was cut off (error power below 1e-6) *)
Record burg_state := MkB { b_fwd : nat -> R; b_bwd : nat -> R; b_a : nat -> R; b_msd : R; b_dead : bool }.
Definition burg_num (N k : nat) (s : burg_state) := sum_from 1 (N - k) (fun j => b_fwd s j * b_bwd s j).
Definition burg_den (N k : nat) (s : burg_state) := sum_from 1 (N - k) (fun j => b_fwd s j ^ 2 + b_bwd s j ^ 2).
(** reflection coefficient of order k *)
Definition reflection (N k : nat) (s : burg_state) : R := 2 * burg_num N k s / burg_den N k s.
Definition burg_step (N k : nat) (s : burg_state) : burg_state :=
  if b_dead s then s else
  if Rlt_dec (Rabs (burg_den N k s)) (1 / 1000000) then MkB (b_fwd s) (b_bwd s) (b_a s) 0 true else
  let r := reflection N k s in
  MkB (fun j => b_fwd s j - r * b_bwd s j)
      (fun j => b_bwd s (j + 1) - r * b_fwd s (j + 1))
      (fun i => if i =? k then r else if (i <? k) && (1 <=? i) then b_a s i - r * b_a s (k - i) else b_a s i)%bool
      (b_msd s * (1 - r ^ 2)) false.
Definition burg_init (x : nat -> R) (N : nat) : burg_state := MkB x (fun j => x (j + 1)%nat) (fun _ => 0) (mean_square x N) false.
Fixpoint burg (x : nat -> R) (N M : nat) : burg_state :=
  match M with O => burg_init x N | S m => burg_step N (S m) (burg x N m) end.

(** prediction error filter 1 - sum a_i z^i and spectral density msd / |1 - sum a_i z^i|^2 *)
Fixpoint csum_from (a n : nat) (f : nat -> C) : C := match n with O => RtoC 0 | S m => Cplus (f a) (csum_from (S a) m f) end.
Definition error_filter (a : nat -> R) (M : nat) (z : C) : C := Cminus (RtoC 1) (csum_from 1 M (fun i => Cmult (RtoC (a i)) (Cpow z i))).
Definition spectral_density (a : nat -> R) (M : nat) (msd : R) (z : C) : R := msd / (Cmod (error_filter a M z)) ^ 2.
(** maximum entropy spectrum of order M of the series x 1 .. x N at the unit phase z; 0 for a series
    that the recursion predicts exactly *)
Definition burg_spectrum (x : nat -> R) (N M : nat) (z : C) : R :=
  let b := burg x N M in if Req_EM_T (b_msd b) 0 then 0 else spectral_density (b_a b) M (b_msd b) z.
