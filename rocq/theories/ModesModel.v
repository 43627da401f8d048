(** Model of plot_phonon_modes (dynaphopy/analysis/modes.py:20-105), called by Quasiparticle.plot_eigenvectors (dynaphopy/__init__.py:579-583):
    the arrows and the cell frame that are drawn.  Exact numbers.  Not modelled: colours, sizes, legend. *)
From Verif Require Export Base.
From Coquelicot Require Export Complex.
From Coq Require Export List.
Export ListNotations.
Open Scope R_scope.

(** real part of a vector of complex numbers *)
Definition re3 (a b c : C) : vec := V3 (fst a) (fst b) (fst c).
Definition cis (t : R) : C := (cos t, sin t).
Section Modes.
Context (atom_type : list nat) (positions : list vec) (masses : list R)   (* get_atom_type_index, get_positions, get_masses of the drawn cell *)
        (eigenvectors : nat -> nat -> nat -> C)                            (* [mode, atom type, coordinate] *)
        (q_vector : vec) (vectors_scale : R).
(** dynaphopy/analysis/modes.py:74-77: the vector drawn at atom i for mode k *)
Definition vector (k i : nat) : vec :=
  let position := nth i positions vzero in
  let t := nth i atom_type 0%nat in
  let c j := Cmult (Cmult (Cdiv (eigenvectors k t j) (RtoC (sqrt (nth t masses 0)))) (cis (vdot position q_vector))) (RtoC vectors_scale) in
  re3 (c 0%nat) (c 1%nat) (c 2%nat).
(** dynaphopy/analysis/modes.py:73-81: from, to *)
Definition arrows (k : nat) : list (vec * vec) :=
  map (fun i => let p := nth i positions vzero in (p, vadd p (vector k i))) (seq 0 (length positions)).
End Modes.

(** dynaphopy/analysis/modes.py:58-70: the segments of the frame, start and end in units of the lattice vectors (each 0 or 1) *)
Definition unit_ (i : nat) : nat * nat * nat := ((if Nat.eqb i 0 then 1 else 0), (if Nat.eqb i 1 then 1 else 0), (if Nat.eqb i 2 then 1 else 0))%nat.
Definition add3 (a b : nat * nat * nat) : nat * nat * nat := let '(a0, a1, a2) := a in let '(b0, b1, b2) := b in (a0 + b0, a1 + b1, a2 + b2)%nat.
Definition frame : list ((nat * nat * nat) * (nat * nat * nat)) :=
  flat_map (fun i => ((0, 0, 0)%nat, unit_ i) ::
    flat_map (fun j => if Nat.eqb i j then [] else (unit_ i, add3 (unit_ i) (unit_ j)) ::
      flat_map (fun k => if negb (Nat.eqb k i) && negb (Nat.eqb k j) && Nat.ltb i j then
                  [(add3 (unit_ i) (unit_ j), add3 (add3 (unit_ i) (unit_ j)) (unit_ k))] else []) (seq 0 3)) (seq 0 3)) (seq 0 3).
Definition corner (cell : mat) (c : nat * nat * nat) : vec := let '(a, b, d) := c in vmul (V3 (INR a) (INR b) (INR d)) cell.
Definition segments (cell : mat) : list (vec * vec) := map (fun s => (corner cell (fst s), corner cell (snd s))) frame.
