(** Specification vocabulary for generated cells. *)
From Verif Require Export Base.
From Coq Require Export String Ascii.
Open Scope R_scope.
(** atoms of the same element are listed next to each other *)
Definition grouped {A} (types : list A) : Prop :=
  forall i j k x, (i < j < k)%nat -> nth_error types i = Some x -> nth_error types k = Some x -> nth_error types j = Some x.
(** the element list an "elements / counts" header stands for *)
Fixpoint header_types {A} (elements : list A) (counts : list nat) : list A :=
  match elements, counts with e :: es, c :: cs => repeat e c ++ header_types es cs | _, _ => [] end.
(** lower triangular lattice (rows) of a LAMMPS box *)
Definition lammps_lattice (lx ly lz xy xz yz : R) : mat := M3 (V3 lx 0 0) (V3 xy ly 0) (V3 xz yz lz).
(** the two lattices have the same lengths and angles: equal Gram matrices *)
Definition same_shape (a b : mat) : Prop :=
  forall f g, In f [r0; r1; r2] -> In g [r0; r1; r2] -> vdot (f a) (g a) = vdot (f b) (g b).

(** entrywise application (rounding to the printed digits) *)
Definition vmap (f : R -> R) (v : vec) : vec := V3 (f (vx v)) (f (vy v)) (f (vz v)).
Definition mmap (f : R -> R) (m : mat) : mat := M3 (vmap f (r0 m)) (vmap f (r1 m)) (vmap f (r2 m)).
(** POSCAR files as lines of words; new style has an element line, old style names the elements in the comment line *)
Definition words (show : R -> string) (v : vec) : list string := [show (vx v); show (vy v); show (vz v)].
Definition new_file (show : R -> string) (show_nat : nat -> string) (scale : string) (cell : mat) (elements : list string) (counts : list nat) (mode : string) (rows : list (list string)) : list (list string) :=
  [ ["Generated"; "using"; "dynaphopy"]; [scale]; words show (r0 cell); words show (r1 cell); words show (r2 cell); elements; map show_nat counts ]%string ++ ([mode] :: rows) ++ [[]].
Definition old_file (show : R -> string) (show_nat : nat -> string) (scale : string) (cell : mat) (elements : list string) (counts : list nat) (mode : string) (rows : list (list string)) : list (list string) :=
  [ elements; [scale]; words show (r0 cell); words show (r1 cell); words show (r2 cell); map show_nat counts ] ++ ([mode] :: rows) ++ [[]].
(** the coordinates are fractional when the mode word begins with d or D (VASP) *)
Definition direct_mode (mode : string) : Prop := exists rest, mode = String "D"%char rest \/ mode = String "d"%char rest.
