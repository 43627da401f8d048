(** Model of get_power_spectrum_full and get_power_spectrum_partials (dynaphopy/__init__.py:781-854).
    The column spectrum (any of the six algorithms applied to one coordinate, unit conversion
    included) is a parameter: C70 shows that the FFT back ends work column by column; the direct and
    MEM routines call the C function once per column (dynaphopy/power_spectrum/__init__.py:64-70, 92-97). *)
From Coq Require Export Reals List ZArith Lia.
Export ListNotations.
Open Scope R_scope.

Section Model.
Context (col : Type) (nf : nat) (power : col -> list R).

Definition sum (l : list R) : R := fold_right Rplus 0 l.
(** velocity_mass_average: shape (steps, atoms, dims), seen as its columns v[:, i, j] *)
Record varray := MkV { natoms : nat; ndims : nat; at_ : nat -> nat -> col }.

(** power_spectrum_functions[algorithm][0](vq, ...): one column per column of vq *)
Definition spectra (cols : list col) : list (list R) := map (fun k => map (fun c => nth k (power c) 0) cols) (seq 0 nf).
(** np.sum(m, axis=1) *)
Definition sum_axis1 (m : list (list R)) : list R := map sum m.
(** elementwise sum of two matrices of the same shape *)
Fixpoint add_rows (a b : list R) : list R := match a, b with x :: a, y :: b => (x + y) :: add_rows a b | _, _ => [] end.
Fixpoint add_matrix (a b : list (list R)) : list (list R) := match a, b with x :: a, y :: b => add_rows x y :: add_matrix a b | _, _ => [] end.
(** v.swapaxes(1, 2).reshape(-1, size): columns with the coordinate as slow index *)
Definition reshaped (v : varray) : list col := flat_map (fun j => map (fun i => at_ v i j) (seq 0 (natoms v))) (seq 0 (ndims v)).
(** dynaphopy/__init__.py:811-820: accumulation, one column at a time *)
Definition accumulated (v : varray) : list (list R) :=
  fold_left (fun acc ij => add_matrix acc (spectra [at_ v (fst ij) (snd ij)]))
            (list_prod (seq 0 (natoms v)) (seq 0 (ndims v))) (repeat [0] nf).

(** np.argwhere(atom_types == t).flatten() *)
Definition indices_of (types : list Z) (t : Z) : list nat := filter (fun i => Z.eqb (nth i types 0%Z) t) (seq 0 (length types)).
(** v[:, idx] and v[:, idx, c, None] *)
Definition select_atoms (v : varray) (idx : list nat) : varray := MkV (length idx) (ndims v) (fun i j => at_ v (nth i idx 0%nat) j).
Definition select_coordinate (v : varray) (idx : list nat) (c : nat) : varray := MkV (length idx) 1 (fun i _ => at_ v (nth i idx 0%nat) c).

Record settings := MkS { silent : bool; project_on_atom : Z }.
(** dynaphopy/__init__.py:132-137 set_projection_onto_atom_type: [None] for exit(); no cache is cleared *)
Definition set_projection_onto_atom_type (nprimitive : nat) (t : Z) (s : settings) : option settings :=
  if ((0 <=? t)%Z && (t <? Z.of_nat nprimitive)%Z)%bool then Some (MkS (silent s) t) else None.
(** dynaphopy/__init__.py:781-831 get_power_spectrum_full(projection_on_coordinate).  [cache] is
    self._power_spectrum_direct; the result is the new cache (= the returned array), [None] for
    exit().  [dims] is structure.get_number_of_dimensions(). *)
Definition get_power_spectrum_full (s : settings) (types : list Z) (dims : nat) (v : varray) (coordinate : Z)
    (cache : option (list R)) : option (list R) :=
  match cache with
  | Some x => Some x
  | None =>
    let selected :=
      if (0 <=? project_on_atom s)%Z then
        let idx := indices_of types (project_on_atom s) in
        if Nat.eqb (length idx) 0 then None
        else if (Z.of_nat dims <=? coordinate)%Z then None
        else if (-1 <? coordinate)%Z then Some (select_coordinate v idx (Z.to_nat coordinate)) else Some (select_atoms v idx)
      else Some v in
    match selected with
    | None => None
    | Some v => Some (sum_axis1 (if silent s then accumulated v else spectra (reshaped v)))
    end
  end.
(** dynaphopy/__init__.py:833-854 get_power_spectrum_partials (empty cache): one column per atom;
    [None]: IndexError for fewer than three coordinates *)
Definition get_power_spectrum_partials (v : varray) : option (list (list R)) :=
  if Nat.ltb (ndims v) 3 then None else
  let atom_columns j := map (fun i => at_ v i j) (seq 0 (natoms v)) in
  Some (fold_left (fun acc j => add_matrix acc (spectra (atom_columns j))) [1; 2]%nat (spectra (atom_columns 0%nat))).
End Model.
Arguments natoms {col}. Arguments ndims {col}. Arguments at_ {col}. Arguments MkV {col}.
