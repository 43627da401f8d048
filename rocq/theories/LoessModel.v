(** Model of the LOESS smoothing of the script fitdata (scripts/fitdata:37-58, called at 85-104 with -sm).  Exact reals; the only not-a-number is 0/0 of 44,
    which happens when the window is empty (h = 0).  np.linalg.solve of a 2x2 system is Cramer's rule and raises LinAlgError when the determinant is zero.
    The columns are functions of the row number, [n] is the number of rows. *)
From Verif Require Export Rounding.
From Coq Require Export Reals List ZArith.
Export ListNotations.
Open Scope R_scope.

(** np.sum over the rows *)
Fixpoint rows_sum (n : nat) (f : nat -> R) : R := match n with O => 0 | S m => rows_sum m f + f m end.
(** np.sort (43) *)
Fixpoint insert_sorted (x : R) (l : list R) : list R := match l with [] => [x] | y :: t => if Rle_dec x y then x :: l else y :: insert_sorted x t end.
Fixpoint np_sort (l : list R) : list R := match l with [] => [] | x :: t => insert_sorted x (np_sort t) end.
(** l[r]: negative indices count from the end; None is IndexError *)
Definition py_item (l : list R) (r : Z) : option R :=
  let k := if (r <? 0)%Z then (r + Z.of_nat (length l))%Z else r in
  if (k <? 0)%Z then None else nth_error l (Z.to_nat k).
(** scripts/fitdata:44: np.clip(.., 0.0, 1.0) *)
Definition clip01 (c : R) : R := Rmax 0 (Rmin c 1).

Section Loess.
Context (n : nat) (x y : nat -> R).
(** scripts/fitdata:42 *)
Definition window (f : R) : Z := rceil (f * INR n).
(** scripts/fitdata:43: h[i] *)
Definition bandwidth (r : Z) (i : nat) : option R := py_item (np_sort (map (fun j => Rabs (x j - x i)) (seq 0 n))) r.
(** scripts/fitdata:44-45: w[j, i] for h[i] = h <> 0 (delta, 47, is one) *)
Definition loess_weight (h : R) (j i : nat) : R := (1 - clip01 (Rabs ((x j - x i) / h)) ^ 3) ^ 3.
Inductive value := Number (v : R) | NotANumber | LinAlgError.
(** scripts/fitdata:48-54, one row *)
Definition loess_row (h : R) (i : nat) : value :=
  if Req_EM_T h 0 then NotANumber else
  let w j := loess_weight h j i in
  let b0 := rows_sum n (fun j => w j * y j) in
  let b1 := rows_sum n (fun j => w j * y j * x j) in
  let a00 := rows_sum n w in
  let a01 := rows_sum n (fun j => w j * x j) in
  let a10 := rows_sum n (fun j => w j * x j) in
  let a11 := rows_sum n (fun j => w j * x j * x j) in
  let det := a00 * a11 - a01 * a10 in
  if Req_EM_T det 0 then LinAlgError else
  let beta0 := (b0 * a11 - a01 * b1) / det in
  let beta1 := (a00 * b1 - a10 * b0) / det in
  Number (beta0 + beta1 * x i).
Inductive outcome := Smooth (rows : list (option R)) | IndexError | LinAlgErrorRaised.   (* a row is None where it is nan *)
(** scripts/fitdata:43: the list comprehension runs before the loop *)
Fixpoint bandwidths (r : Z) (l : list nat) : option (list R) :=
  match l with
  | [] => Some []
  | i :: t => match bandwidth r i, bandwidths r t with Some h, Some hs => Some (h :: hs) | _, _ => None end
  end.
(** scripts/fitdata:48-54 the loop *)
Fixpoint loess_loop (l : list (nat * R)) : outcome :=
  match l with
  | [] => Smooth []
  | (i, h) :: t =>
      match loess_row h i with
      | LinAlgError => LinAlgErrorRaised
      | v => match loess_loop t with Smooth rows => Smooth ((match v with Number a => Some a | _ => None end) :: rows) | e => e end
      end
  end.
(** scripts/fitdata:38-56 *)
Definition loess (f : R) : outcome :=
  match bandwidths (window f) (seq 0 n) with None => IndexError | Some hs => loess_loop (combine (seq 0 n) hs) end.
End Loess.
