(** Model of the two reports about atoms in the unit cell: the average atomic positions and the anisotropic displacement parameters
    (dynaphopy/__init__.py:1384-1443, dynaphopy/dynamics.py:241-295). *)
From Verif Require Import Base Rounding SupercellModel DynamicsModel DisplacementsModel OutputModel.
Open Scope nat_scope.

(** what atom i does in time: column i of the (steps x atoms) trajectory; every step has an entry for every atom *)
Definition column (i : nat) (trajectory : list (list vec)) : list vec := map (fun frame => nth i frame vzero) trajectory.

(** dynaphopy/dynamics.py:158-179 (get_relative_trajectory, the C routine) followed by np.average over the time axis (line 260).
    [md]: the cell of the simulation; [reference]: structure.get_positions(supercell); one entry for each atom of the trajectory *)
Definition averaged_displacements (md : mat) (reference : list vec) (trajectory : list (list vec)) (number_of_atoms : nat) : list vec :=
  map (fun i => vmean (map (displacement3 md (nth i reference vzero)) (column i trajectory))) (seq 0 number_of_atoms).

(** dynaphopy/dynamics.py:241-295 average_positions(to_unit_cell=False) without sampling: displacement plus reference position, folded into the simulation
    cell.  [inv]: numpy.linalg.inv.  The sum of the two arrays needs as many atoms in the trajectory as in the supercell: None (broadcasting of a
    single atom is left out). *)
Definition average_positions_md (inv : mat -> mat) (md cell : mat) (positions : list vec) (supercell : list nat) (trajectory : list (list vec)) (number_of_atoms : nat) : option (list vec) :=
  let reference := get_positions cell positions supercell in
  if length reference =? number_of_atoms then
    Some (map (fun i => fold_into_cell inv md (vadd (nth i (averaged_displacements md reference trajectory number_of_atoms) vzero) (nth i reference vzero))) (seq 0 number_of_atoms))
  else None.
(** dynaphopy/dynamics.py:264-283 average_positions(to_unit_cell=True): accumulation by type (index_type of the supercell), then the value of the type of
    each atom of the unit cell, plus its position, folded into the unit cell *)
Definition average_positions_unit (inv : mat -> mat) (md cell : mat) (positions : list vec) (types : list nat) (supercell : list nat) (trajectory : list (list vec)) (number_of_atoms : nat) : option (list vec) :=
  match get_attribute (length positions) types supercell with
  | Some index_type =>
    let reference := get_positions cell positions supercell in
    let atoms := combine index_type (averaged_displacements md reference trajectory number_of_atoms) in
    Some (map (fun k => average_position_unit inv cell (nprod supercell) atoms (nth k positions vzero) (nth k types 0)) (seq 0 (length positions)))
  | None => None
  end.

(** dynaphopy/__init__.py:1442-1443: elements[i] beside the coordinates of row i; a missing element is an IndexError (None) *)
Fixpoint print_rows {E} (elements : list E) (averages : list vec) : option (list (E * vec)) :=
  match averages, elements with
  | [], _ => Some []
  | y :: ys, e :: es => match print_rows es ys with Some r => Some ((e, y) :: r) | None => None end
  | _ :: _, [] => None
  end.
(** dynaphopy/__init__.py:1432-1443 get_average_atomic_positions; the numbers are printed with eight decimals (the printed digits are left out) *)
Definition get_average_atomic_positions {E} (to_unit_cell : bool) (inv : mat -> mat) (md cell : mat) (elements : list E) (positions : list vec) (types : list nat)
  (supercell : list nat) (trajectory : list (list vec)) (number_of_atoms : nat) : option (list (E * vec)) :=
  match (if to_unit_cell then average_positions_unit inv md cell positions types supercell trajectory number_of_atoms
         else average_positions_md inv md cell positions supercell trajectory number_of_atoms),
        get_attribute (length positions) elements (if to_unit_cell then [1; 1; 1] else supercell) with
  | Some averages, Some names => print_rows names averages
  | _, _ => None
  end.

(** np.unique(l): the different values in increasing order, with the first index and the number of each *)
Definition unique_values (l : list nat) : list nat := filter (fun v => existsb (Nat.eqb v) l) (seq 0 (S (list_max l))).
Fixpoint first_index (v : nat) (l : list nat) : nat := match l with [] => 0 | x :: r => if x =? v then 0 else S (first_index v r) end.

(** dynaphopy/__init__.py:1386-1430 the rows of get_anisotropic_displacement_parameters: for each type, as many rows as the unit cell has atoms of it,
    with the element of the first of them; [matrices]: get_mean_displacement_matrix, one for each type.  Not enough types: IndexError (None). *)
Definition displacement_rows {E} (d : E) (cell_inv : mat) (c : coordinate_type) (elements : list E) (atom_type : list nat) (matrices : list mat) : option (list (E * list R)) :=
  let values := unique_values atom_type in
  let atomic_types_unique := map (fun v => nth (first_index v atom_type) elements d) values in
  let atom_equivalent := map (fun v => count_occ Nat.eq_dec atom_type v) values in
  if length matrices <=? length values then
    Some (concat (map (fun i => repeat (nth i atomic_types_unique d, adp_row (adp cell_inv (nth i matrices mzero) c)) (nth i atom_equivalent 0)) (seq 0 (length matrices))))
  else None.
