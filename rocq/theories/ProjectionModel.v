(** Model of dynaphopy/projection.py.  Arrays are functions of their indices with explicit shapes;
    numbers are exact (reals and complex numbers). *)
From Coq Require Export ZArith Bool Reals Arith List.
From Coquelicot Require Export Complex.
Export ListNotations.
Open Scope R_scope.

(** sums over range(n), left to right (np.dot, np.trace and the += loops below) *)
Fixpoint csum (n : nat) (f : nat -> C) : C := match n with O => RtoC 0 | S n => Cplus (csum n f) (f n) end.
Fixpoint rdot (n : nat) (f g : nat -> R) : R := match n with O => 0 | S n => rdot n f g + f n * g n end.

Section WaveVector.
Context (natoms nprim ndim : nat).
Context (types : nat -> nat)                 (* get_atom_type_index(supercell) *)
        (coords : nat -> nat -> R)           (* get_positions(supercell) *)
        (q : nat -> R).
(** np.exp(-1j*np.dot(q_vector, coordinates[i,:])) *)
Definition phase (i : nat) : C := let th := rdot ndim q (coords i) in (cos (- th), sin (- th)).
(** arrays indexed [step][atom or type][dimension] *)
Definition array3 := nat -> nat -> nat -> C.
(** a[:, ty, k] += f *)
Definition add_column (ty k : nat) (f : nat -> C) (a : array3) : array3 :=
  fun t ty' k' => if ((ty' =? ty)%nat && (k' =? k)%nat)%bool then Cplus (a t ty' k') (f t) else a t ty' k'.
(** dynaphopy/projection.py:31-32 inner loop *)
Definition add_atom (velocity : array3) (i : nat) (a : array3) : array3 :=
  fold_left (fun a k => add_column (types i) k (fun t => Cmult (velocity t i k) (phase i)) a) (seq 0 ndim) a.
(** dynaphopy/projection.py:25-32; an atom type outside the array raises IndexError (None) *)
Definition atom_step (velocity : array3) (project_on_atom : Z) (acc : option array3) (i : nat) : option array3 :=
  match acc with
  | None => None
  | Some a =>
    if (Z.ltb (-1) project_on_atom && negb (Z.eqb (Z.of_nat (types i)) project_on_atom))%bool then Some a
    else if (types i <? nprim)%nat then Some (add_atom velocity i a) else None
  end.
Definition project_loop (velocity : array3) (project_on_atom : Z) : option array3 :=
  fold_left (atom_step velocity project_on_atom) (seq 0 natoms) (Some (fun _ _ _ => RtoC 0)).
(** dynaphopy/projection.py:38-40: division by sqrt(number_of_atoms/number_of_primitive_atoms) *)
Definition cells : R := INR natoms / INR nprim.
(** dynaphopy/projection.py:4-41 project_onto_wave_vector; the first argument is trajectory.velocity, with
    dynamics.py get_velocity_mass_average (velocity times sqrt(mass)) applied here *)
Definition mass_average (velocity : array3) (masses : nat -> R) : array3 := fun t i k => Cmult (velocity t i k) (RtoC (sqrt (masses i))).
Definition project_onto_wave_vector (velocity : array3) (masses : nat -> R) (project_on_atom : Z) : option array3 :=
  match project_loop (mass_average velocity masses) project_on_atom with
  | None => None
  | Some a => Some (fun t ty k => Cdiv (a t ty k) (RtoC (sqrt cells)))
  end.
End WaveVector.

Section Phonon.
Context (natoms ndim nmodes : nat).
Context (vc : nat -> nat -> nat -> C)        (* [step][atom][dimension] *)
        (e : nat -> nat -> nat -> C).        (* [mode][atom][dimension] *)
(** np.dot(vc[:, i, :], eigenvectors[k, i, :].conj()) at step t *)
Definition dot_conj (t k i : nat) : C := csum ndim (fun d => Cmult (vc t i d) (Cconj (e k i d))).
(** dynaphopy/projection.py:44-55 project_onto_phonon: for k, for i: velocity_projected[:, k] += dot *)
Definition add_mode (k : nat) (f : nat -> C) (a : nat -> nat -> C) : nat -> nat -> C :=
  fun t k' => if (k' =? k)%nat then Cplus (a t k') (f t) else a t k'.
Definition project_onto_phonon : nat -> nat -> C :=
  fold_left (fun a k => fold_left (fun a i => add_mode k (fun t => dot_conj t k i) a) (seq 0 natoms) a)
    (seq 0 nmodes) (fun _ _ => RtoC 0).
(** dynaphopy/projection.py:58-70 project_onto_phonon2: trace of vc[i,:,:] . eigenvectors[k,:,:].T.conj() *)
Definition project_onto_phonon2 (t k : nat) : C :=
  csum natoms (fun a => csum ndim (fun d => Cmult (vc t a d) (Cconj (e k a d)))).
End Phonon.
