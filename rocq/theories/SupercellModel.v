(** Model of the supercell expansion in dynaphopy/atoms.py. *)
From Verif Require Export Base.
Open Scope nat_scope.

(** itertools.product over lists: the last list varies fastest (Python library semantics,
    used at dynaphopy/atoms.py:152). *)
Fixpoint product {A} (ls : list (list A)) : list (list A) :=
  match ls with
  | [] => [[]]
  | l :: rest => flat_map (fun a => map (cons a) (product rest)) l
  end.

(** np.dot(np.array(r), cell) for an integer list r of length 3
    (dynaphopy/atoms.py:153).  Other lengths would raise in numpy; they cannot occur for a
    supercell of length 3 (simplification: three dimensions). *)
Definition lattice_translation (cell : mat) (r : list nat) : vec :=
  vmul (V3 (INR (nth 0 r 0)) (INR (nth 1 r 0)) (INR (nth 2 r 0))) cell.

(** dynaphopy/atoms.py:139-156  Structure.get_positions(supercell), with the unit cell
    positions already cached in self._positions. *)
Definition get_positions (cell : mat) (positions : list vec) (supercell : list nat) : list vec :=
  flat_map (fun p =>
    map (fun r => vadd p (lattice_translation cell (rev r)))
        (product (map (seq 0) (rev supercell))))
    positions.

(** np.prod(supercell) *)
Definition nprod (l : list nat) : nat := fold_left Nat.mul l 1.

(** dynaphopy/atoms.py:201-208 get_masses, 210-222 get_charges, 233-241 get_atomic_numbers,
    265-275 get_atomic_elements (unique=False) and 311-317 (end of get_atom_type_index):
    for j in range(number_of_cell_atoms): out += [attr[j]] * np.prod(supercell).
    attr[j] raises IndexError when the attribute list is too short: [None]. *)
Fixpoint expand_loop {A} (attr : list A) (n : nat) (todo : list nat) (acc : list A) : option (list A) :=
  match todo with
  | [] => Some acc
  | j :: rest => match nth_error attr j with
                 | None => None
                 | Some a => expand_loop attr n rest (acc ++ repeat a n)
                 end
  end.
Definition get_attribute {A} (number_of_cell_atoms : nat) (attr : list A) (supercell : list nat) : option (list A) :=
  expand_loop attr (nprod supercell) (seq 0 number_of_cell_atoms) [].

(** dynaphopy/interface/iofile/__init__.py:130-136 dynaphopy_order(i, size) *)
Definition dynaphopy_order (i : nat) (sx sy sz : nat) : nat * nat * nat * nat :=
  (i mod sx,
   (i mod (sx * sy)) / sx,
   (i mod (sx * sy * sz)) / (sy * sx),
   i / (sy * sx * sz)).

(** dynaphopy/atoms.py:88-93 get_cell(supercell) = np.dot(cell, np.diag(supercell)) *)
Definition get_cell (cell : mat) (nx ny nz : nat) : mat := mmul cell (mdiag (INR nx) (INR ny) (INR nz)).

(** dynaphopy/atoms.py:158-168 get_scaled_positions(supercell): positions(supercell) times the
    inverse of get_cell(supercell).  [inv] stands for numpy.linalg.inv. *)
Definition get_scaled_positions (inv : mat -> mat) (cell : mat) (positions : list vec) (nx ny nz : nat) : list vec :=
  map (fun p => vmul p (inv (get_cell cell nx ny nz))) (get_positions cell positions [nx; ny; nz]).
