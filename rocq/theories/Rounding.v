(** Rounding of reals to integers, as done by numpy.around (ties to even) and by C's round()
    (ties away from zero).  Exact arithmetic. *)
From Coq Require Import Reals ZArith Lia Lra.
Open Scope R_scope.

(** floor *)
Definition rfloor (x : R) : Z := Int_part x.

(** numpy.around(x, decimals=0) *)
Definition around (x : R) : Z :=
  let f := rfloor x in
  let d := x - IZR f in
  if Rlt_dec d (1/2) then f
  else if Rlt_dec (1/2) d then (f + 1)%Z
  else if Z.even f then f else (f + 1)%Z.

(** C99 round() *)
Definition cround (x : R) : Z :=
  if Rle_dec 0 x then rfloor (x + 1/2) else (- rfloor (- x + 1/2))%Z.

(** ceiling, used by numpy.arange *)
Definition rceil (x : R) : Z := (- rfloor (- x))%Z.

Lemma rfloor_bounds x : IZR (rfloor x) <= x < IZR (rfloor x) + 1.
Proof. unfold rfloor. destruct (base_Int_part x). lra. Qed.

Lemma rfloor_unique x n : IZR n <= x < IZR n + 1 -> rfloor x = n.
Proof.
  intros H. pose proof (rfloor_bounds x) as B.
  assert (A1 : IZR (rfloor x) < IZR (n + 1)) by (rewrite plus_IZR; lra).
  assert (A2 : IZR n < IZR (rfloor x + 1)) by (rewrite plus_IZR; lra).
  apply lt_IZR in A1, A2. lia.
Qed.

Lemma rfloor_IZR n : rfloor (IZR n) = n.
Proof. apply rfloor_unique; lra. Qed.

Lemma rfloor_add x n : rfloor (x + IZR n) = (rfloor x + n)%Z.
Proof. apply rfloor_unique. rewrite plus_IZR. pose proof (rfloor_bounds x). lra. Qed.

Lemma rfloor_mono x y : x <= y -> (rfloor x <= rfloor y)%Z.
Proof.
  intros H. pose proof (rfloor_bounds x); pose proof (rfloor_bounds y).
  assert (A : IZR (rfloor x) < IZR (rfloor y + 1)) by (rewrite plus_IZR; lra).
  apply lt_IZR in A. lia.
Qed.

Lemma rceil_bounds x : IZR (rceil x) - 1 < x <= IZR (rceil x).
Proof. unfold rceil. rewrite opp_IZR. pose proof (rfloor_bounds (- x)). lra. Qed.

Lemma rceil_unique x n : IZR n - 1 < x <= IZR n -> rceil x = n.
Proof. intros H. unfold rceil. rewrite (rfloor_unique (-x) (-n)); [lia|]. rewrite opp_IZR. lra. Qed.

Lemma around_half x : -(1/2) <= x - IZR (around x) <= 1/2.
Proof.
  unfold around. pose proof (rfloor_bounds x).
  destruct (Rlt_dec _ _); [lra|]. destruct (Rlt_dec _ _); [rewrite plus_IZR; lra|].
  destruct (Z.even _); [lra|]. rewrite plus_IZR; lra.
Qed.

Lemma around_nearest x n : -(1/2) < x - IZR n < 1/2 -> around x = n.
Proof.
  intros H. pose proof (around_half x).
  assert (A1 : IZR (around x) < IZR (n + 1)) by (rewrite plus_IZR; lra).
  assert (A2 : IZR n < IZR (around x + 1)) by (rewrite plus_IZR; lra).
  apply lt_IZR in A1, A2. lia.
Qed.

Lemma around_IZR n : around (IZR n) = n.
Proof. apply around_nearest. lra. Qed.

Lemma cround_half x : -(1/2) <= x - IZR (cround x) <= 1/2.
Proof.
  unfold cround. destruct (Rle_dec 0 x).
  - pose proof (rfloor_bounds (x + 1/2)). lra.
  - rewrite opp_IZR. pose proof (rfloor_bounds (- x + 1/2)). lra.
Qed.

Lemma cround_nearest x n : -(1/2) < x - IZR n < 1/2 -> cround x = n.
Proof.
  intros H. pose proof (cround_half x).
  assert (A1 : IZR (cround x) < IZR (n + 1)) by (rewrite plus_IZR; lra).
  assert (A2 : IZR n < IZR (cround x + 1)) by (rewrite plus_IZR; lra).
  apply lt_IZR in A1, A2. lia.
Qed.

Lemma cround_IZR n : cround (IZR n) = n.
Proof. apply cround_nearest. lra. Qed.

(** away from ties every rounding rule agrees *)
Lemma round_no_tie x : (forall n : Z, x <> IZR n + 1/2) -> -(1/2) < x - IZR (cround x) < 1/2.
Proof.
  intros H. pose proof (cround_half x) as B.
  assert (N1 : x - IZR (cround x) <> 1/2) by (intros E; apply (H (cround x)); lra).
  assert (N2 : x - IZR (cround x) <> -(1/2)).
  { intros E. apply (H (cround x - 1)%Z). rewrite minus_IZR. lra. }
  lra.
Qed.

Lemma around_cround_no_tie x : (forall n : Z, x <> IZR n + 1/2) -> around x = cround x.
Proof. intros H. apply around_nearest, round_no_tie, H. Qed.

Lemma cround_opp x : cround (- x) = (- cround x)%Z.
Proof.
  destruct (Req_dec x 0) as [->|N].
  - rewrite Ropp_0. replace 0 with (IZR 0) by reflexivity. rewrite cround_IZR. reflexivity.
  - unfold cround. destruct (Rle_dec 0 (- x)), (Rle_dec 0 x); try lra; [lia|].
    rewrite Ropp_involutive. reflexivity.
Qed.
