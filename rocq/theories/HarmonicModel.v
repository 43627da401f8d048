(** Model of generate_test_trajectory (dynaphopy/interface/iofile/__init__.py:335-449): the ideal harmonic trajectory.
    Floats are real numbers, complex128 is Coquelicot's C.  Phonopy's data (commensurate points, frequencies, eigenvectors) and the
    structure's data (supercell positions, masses, types) are parameters, the arrays seen as functions of their indices. *)
From Verif Require Export Rounding.
From Coq Require Export Reals ZArith.
From Coquelicot Require Export Complex.
From Coq Require Export List.
Export ListNotations.
Open Scope R_scope.

Definition sumn (n : nat) (f : nat -> R) : R := fold_right Rplus 0 (map f (seq 0 n)).
(** np.exp of a complex number *)
Definition cexp (z : C) : C := (exp (fst z) * cos (snd z), exp (fst z) * sin (snd z)).
(** line 348: u A^2 / (ps^2 K) *)
Definition kb_boltzmann : R := 831446 / 1000000.

Section Model.
Context (dims natoms nprim nq nf : nat).       (* natoms: atoms of the supercell; nq: commensurate points; nf: modes per point *)
Context (pos : nat -> nat -> R) (mass : nat -> R) (atype : nat -> nat). (* supercell positions, masses, types *)
Context (q : nat -> nat -> R)                  (* line 380: Cartesian wave vectors *)
        (fr : nat -> nat -> R)                 (* frequencies_r[i_long][i_freq] *)
        (ev : nat -> nat -> nat -> nat -> C).  (* eigenvectors_r[i_long][i_freq, atom, coordinate] *)

(** line 371 *)
Definition number_of_primitive_cells : R := INR natoms / INR nprim.
(** line 383 *)
Definition atoms_relation : R := INR (nq * nprim) / INR natoms.
(** line 409 *)
Definition amplitude (temperature f : R) : R :=
  sqrt (INR dims * kb_boltzmann * temperature / number_of_primitive_cells * atoms_relation) / (f * 2 * PI).
(** line 410 *)
Definition normal_mode (temperature f time : R) : C := Cmult (RtoC (amplitude temperature f)) (cexp (0, - f * 2 * PI * time)).
(** line 411: np.exp(1j * np.dot(q_vector, positions.T) + phase_0) *)
Definition phase (phase_0 : R) (i a : nat) : C := cexp (phase_0, sumn dims (fun c => q i c * pos a c)).
(** lines 413-416: real part of the product *)
Definition term (temperature phase_0 time : R) (k i a c : nat) : R :=
  fst (Cmult (Cmult (Cmult (RtoC (1 / sqrt (mass a))) (ev i k (atype a) c)) (phase phase_0 i a)) (normal_mode temperature (fr i k) time)).
(** lines 403-416: one coordinate of one atom at one time *)
Definition coordinate (temperature minimum_frequency phase_0 time : R) (a c : nat) : R :=
  fold_left (fun x k => fold_left (fun x i =>
      if Rlt_dec minimum_frequency (Rabs (fr i k)) then x + term temperature phase_0 time k i a c else x) (seq 0 nq) x) (seq 0 nf) (pos a c).

Record dynamics := MkDyn { trajectory : list (list (list R)); time_array : list R; energy : list R }.
(** lines 402-403, 418-428 and 443-448; np.arange(total_time, step=time_step) has ceil(total_time/time_step) entries k*time_step *)
Definition generate_test_trajectory (total_time time_step temperature minimum_frequency phase_0 : R) : dynamics :=
  let n := Z.to_nat (rceil (total_time / time_step)) in
  let frames := map (fun s => map (fun a => map (coordinate temperature minimum_frequency phase_0 (INR s * time_step) a) (seq 0 dims)) (seq 0 natoms)) (seq 0 n) in
  MkDyn frames (map (fun s => INR s * time_step) (seq 0 (length frames)))
        (map (fun _ => INR natoms * INR dims * kb_boltzmann * temperature) (seq 0 (length frames))).
End Model.
