(** Model of trajectory_projection (dynaphopy/analysis/coordinates.py:78-98), get_atomic_displacements and write_atomic_displacements
    (dynaphopy/__init__.py:1054-1081) and of the abscissae used by plot_trajectory_distribution (dynaphopy/__init__.py:984-1033).  Exact reals. *)
From Verif Require Export Base OutputModel.
Open Scope R_scope.

(** the real part of dynamic.get_relative_trajectory(), steps x atoms *)
Record rel_trajectory := MkT { steps : nat; natoms : nat; disp : nat -> nat -> vec }.
Definition vdiv (v : vec) (k : R) : vec := V3 (vx v / k) (vy v / k) (vz v / k).
Definition same_lengths (l : list (list R)) : bool := match l with [] => true | r :: t => forallb (fun r' => Nat.eqb (length r') (length r)) t end.
(** dynaphopy/analysis/coordinates.py:78-98; [None]: np.array of rows of different lengths (ValueError since numpy 1.24; before, an array of
    objects on which np.amin fails).  The zero direction divides by zero and gives nan: not modelled, see the theorems. *)
Definition trajectory_projection (t : rel_trajectory) (types : list nat) (ntypes : nat) (direction : vec) : option (list (list R)) :=
  let direction := vdiv direction (vnorm direction) in
  let rows := map (fun j => fold_left (fun p i => if Nat.eqb (nth i types 0%nat) j then
                     p ++ map (fun s => vdot (disp t s i) (vdiv direction (vnorm direction))) (seq 0 (steps t)) else p) (seq 0 (natoms t)) [])
                  (seq 0 ntypes) in
  if same_lengths rows then Some rows else None.

(** np.amin, np.amax *)
Definition amin (x : R) (l : list R) : R := fold_left Rmin l x.
Definition amax (x : R) (l : list R) : R := fold_left Rmax l x.
(** np.histogram(l, bins=n, range=(lo, hi), density=True): edges of np.linspace, the last bin closed on the right; an empty range is
    widened by one half on each side *)
Definition outer_edges (lo hi : R) : R * R := if Req_EM_T lo hi then (lo - 1/2, hi + 1/2) else (lo, hi).
Definition edge (n : nat) (lo hi : R) (i : nat) : R := let '(a, b) := outer_edges lo hi in a + INR i * ((b - a) / INR n).
Definition in_bin (n : nat) (lo hi : R) (i : nat) (x : R) : bool :=
  (if Rle_dec (edge n lo hi i) x then true else false) &&
  (if Rlt_dec x (edge n lo hi (S i)) then true else if Nat.eqb (S i) n then (if Req_EM_T x (edge n lo hi n) then true else false) else false).
Definition counts (n : nat) (lo hi : R) (l : list R) : list nat := map (fun i => length (filter (in_bin n lo hi i) l)) (seq 0 n).
Definition histogram (n : nat) (lo hi : R) (l : list R) : list R * list R :=
  let c := counts n lo hi l in
  (map (fun i => INR (nth i c 0%nat) / (edge n lo hi (S i) - edge n lo hi i) / INR (fold_right plus 0%nat c)) (seq 0 n),
   map (edge n lo hi) (seq 0 (S n))).

(** dynaphopy/__init__.py:1054-1076: densities per type and the array "distance" *)
Definition get_atomic_displacements (t : rel_trajectory) (types : list nat) (ntypes number_of_bins : nat) (direction : vec) : option (list (list R) * list R) :=
  match trajectory_projection t types ntypes direction with
  | None => None
  | Some rows =>
    match concat rows with
    | [] => None
    | x :: l =>
      let lo := amin x l in let hi := amax x l in
      let bins := snd (histogram number_of_bins lo hi []) in
      Some (map (fun r => fst (histogram number_of_bins lo hi r)) rows, map (fun b => b - (nth 1 bins 0 - nth 0 bins 0) / 2) bins)
    end
  end.
(** distributions.T *)
Definition transpose (n : nat) (m : list (list R)) : list (list R) := map (fun i => map (fun r => nth i r 0) m) (seq 0 n).
(** dynaphopy/__init__.py:1078-1080 *)
Definition write_atomic_displacements (ff fv : R -> string) (t : rel_trajectory) (types : list nat) (ntypes number_of_bins : nat) (direction : vec) : option string :=
  match get_atomic_displacements t types ntypes number_of_bins direction with
  | None => None
  | Some (d, distance) => write_rows ff fv distance (transpose number_of_bins d)
  end.
(** dynaphopy/__init__.py:1003-1004 and 1010: bar centres and abscissae of the fit *)
Definition plot_centers (distance : list R) : list R * list R :=
  let width := nth 1 distance 0 - nth 0 distance 0 in
  let n := (length distance - 1)%nat in
  (map (fun i => (nth i distance 0 + nth (S i) distance 0 + width) / 2) (seq 0 n), map (fun i => nth i distance 0 + width) (seq 0 n)).
