(** Model of the lazily filled attributes of dynaphopy/dynamics.py:Dynamics under failures: get_supercell_matrix
    (181-205), velocity (310-328), get_velocity_mass_average (140-154), statement by statement.
    Simplifications: velocities are one column per atom and coordinate; np.sqrt(masses) are given; the relative
    trajectory (156-179) is given by its columns, what it asks of the object is followed (get_supercell_matrix);
    in-memory arrays (no memmap). *)
From Verif Require Export DynamicsModel.
From Coq Require Export Bool.
Open Scope R_scope.

Section Model.
(** tolerance; MD supercell; unit cell; atoms of the unit cell; dimensions *)
Context (tol : R) (supercell cell : mat) (unit_atoms dims : nat).
(** relative_trajectory[:, i, j]; average time step; np.sqrt(get_masses(supercell)[i]) *)
Context (relative : nat -> nat -> list R) (dt : R) (sqrt_mass : nat -> R).
(** what np.empty_like happens to find in memory *)
Context (memory : nat -> nat -> list R).
(** the user interrupts the program just before the assignment made at time t *)
Context (interrupts : nat -> bool).

Definition columns := nat -> nat -> list R.
Record st := MkSt { matrix : option (Z * Z * Z); velocity : option columns; weighted : option columns; clock : nat }.
Definition tick (s : st) := MkSt (matrix s) (velocity s) (weighted s) (S (clock s)).
Definition put_matrix m (s : st) := MkSt (Some m) (velocity s) (weighted s) (clock s).
Definition put_velocity v (s : st) := MkSt (matrix s) (Some v) (weighted s) (clock s).
Definition put_weighted v (s : st) := MkSt (matrix s) (velocity s) (Some v) (clock s).
Definition M (A : Type) := st -> option A * st.
Definition ret {A} (a : A) : M A := fun s => (Some a, s).
Definition raise {A} : M A := fun s => (None, s).
Definition bind {A B} (m : M A) (f : A -> M B) : M B := fun s => match m s with (Some a, s') => f a s' | (None, s') => (None, s') end.
Definition gets {A} (f : st -> A) : M A := fun s => (Some (f s), s).
Definition assign (f : st -> st) : M unit := fun s => if interrupts (clock s) then (None, tick s) else (Some tt, tick (f s)).
Fixpoint for_each {A} (f : A -> M unit) (l : list A) : M unit := match l with [] => ret tt | a :: l => bind (f a) (fun _ => for_each f l) end.
Definition cached {A} (c : option A) : M A := match c with Some x => ret x | None => raise end.

(** dynaphopy/dynamics.py:193-194 np.around of the ratios of the row lengths *)
Definition rounded : Z * Z * Z :=
  (around (vnorm (r0 supercell) / vnorm (r0 cell)), around (vnorm (r1 supercell) / vnorm (r1 cell)), around (vnorm (r2 supercell) / vnorm (r2 cell))).
(** dynaphopy/dynamics.py:181-205 get_supercell_matrix: the attribute is set before the check *)
Definition get_supercell_matrix : M (Z * Z * Z) :=
  bind (gets matrix) (fun c => match c with Some m => ret m | None =>
  bind (assign (put_matrix rounded)) (fun _ =>
  bind (match supercell_matrix tol supercell cell with None => raise | Some _ => ret tt end) (fun _ => bind (gets matrix) cached)) end).
(** dynaphopy/dynamics.py:106-109 get_number_of_atoms *)
Definition get_number_of_atoms : M nat :=
  bind get_supercell_matrix (fun m => ret (unit_atoms * Z.to_nat (fst (fst m)) * Z.to_nat (snd (fst m)) * Z.to_nat (snd m))%nat).
(** dynaphopy/dynamics.py:156-179 get_relative_trajectory, what it asks of the object *)
Definition get_relative : M columns := bind get_supercell_matrix (fun _ => ret relative).
Definition write (i j : nat) (x : list R) (a : columns) : columns := fun i' j' => if (i' =? i)%nat && (j' =? j)%nat then x else a i' j'.
(** np.gradient raises on fewer than two samples *)
Definition gradient (x : list R) : M (list R) := if (length x <? 2)%nat then raise else ret (np_gradient x dt).
(** dynaphopy/dynamics.py:310-328 velocity *)
Definition get_velocity : M columns :=
  bind (gets velocity) (fun c => match c with Some v => ret v | None =>
  bind get_relative (fun r => bind (assign (put_velocity (fun i j => repeat 0 (length (r i j))))) (fun _ =>
  bind get_number_of_atoms (fun n =>
  bind (for_each (fun ij => bind (gradient (relative (fst ij) (snd ij))) (fun g =>
          assign (fun s => match velocity s with Some v => put_velocity (write (fst ij) (snd ij) g v) s | None => s end)))
        (list_prod (seq 0 n) (seq 0 dims))) (fun _ => bind (gets velocity) cached)))) end).
(** dynaphopy/dynamics.py:140-154 get_velocity_mass_average; one assignment writes the [dims] columns of an atom *)
Definition write_atom (i : nat) (x : nat -> list R) (a : columns) : columns := fun i' j' => if (i' =? i)%nat then x j' else a i' j'.
Definition get_velocity_mass_average : M columns :=
  bind (gets weighted) (fun c => match c with Some w => ret w | None =>
  bind get_velocity (fun _ => bind (assign (put_weighted memory)) (fun _ =>
  bind get_supercell_matrix (fun _ => bind get_number_of_atoms (fun n =>
  bind (for_each (fun i => bind get_velocity (fun v =>
          assign (fun s => match weighted s with Some w => put_weighted (write_atom i (fun j => map (Rmult (sqrt_mass i)) (v i j)) w) s | None => s end)))
        (seq 0 n)) (fun _ => bind (gets weighted) cached))))) end).

Inductive request := SupercellMatrix | Velocity | MassWeighted.
Inductive answer := Factors (m : Z * Z * Z) | Columns (v : columns).
Definition ask (r : request) : M answer :=
  match r with
  | SupercellMatrix => bind get_supercell_matrix (fun m => ret (Factors m))
  | Velocity => bind get_velocity (fun v => ret (Columns v))
  | MassWeighted => bind get_velocity_mass_average (fun v => ret (Columns v))
  end.
Definition session (h : list request) (s : st) : st := fold_left (fun s r => snd (ask r s)) h s.
(** a Dynamics object as constructed, with or without velocities from the trajectory file *)
Definition fresh (given : option columns) : st := MkSt None given None 0.
End Model.
