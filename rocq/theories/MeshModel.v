(** Model of Quasiparticle.get_mesh_frequencies_and_linewidths / write_mesh_data (dynaphopy/__init__.py:533-564, 1249-1251) and
    dynaphopy/interface/iofile/__init__.py:751-774.
    phonopy is modelled at the mesh points that are commensurate with the supercell: there its Fourier interpolation returns the dynamical
    matrix it was given, whose eigenvalues numpy.linalg.eigh returns in ascending order.  Other mesh points, symmetrization, NAC and the
    choice of irreducible points are not modelled. *)
From Verif Require Export PhonopyLinkModel.
From Coq Require Export List.
Export ListNotations.
Open Scope R_scope.

Fixpoint insert (x : R) (l : list R) : list R := match l with [] => [x] | y :: l => if Rle_dec x y then x :: y :: l else y :: insert x l end.
(** numpy.linalg.eigh: ascending eigenvalues of a matrix with the eigenvalues l *)
Definition ascending (l : list R) : list R := fold_right insert [] l.
(** phonopy: frequency of an eigenvalue *)
Definition frequency_of (unit_conversion e : R) : R := np_sign e * sqrt (Rabs e) * unit_conversion.
(** dynaphopy/interface/phonopy_link.py:366-392 and 287-298 at one commensurate point: the values handed in come back through the dynamical matrix *)
Definition mesh_values (unit_conversion : R) (values : list R) : list R := map (frequency_of unit_conversion) (ascending (map (eigenvalue unit_conversion) values)).

Record point := MkP { p_q : vec; p_weight : nat; p_fitted : list R; p_widths : list R }.     (* what the fits gave at this point *)
Record mesh_entry := MkE { e_q : vec; e_frequencies : list R; e_linewidths : list R; e_multiplicity : nat }.
(** __init__.py:533-564: the same reconstruction for linewidths and for frequencies *)
Definition get_mesh (unit_conversion : R) (points : list point) : list vec * list nat * list (list R) * list (list R) :=
  (map p_q points, map p_weight points, map (fun p => mesh_values unit_conversion (p_fitted p)) points, map (fun p => mesh_values unit_conversion (p_widths p)) points).
(** dynaphopy/interface/iofile/__init__.py:763-771; [None]: IndexError *)
Fixpoint mesh_entries (i : nat) (qs : list vec) (mult : list nat) (fs ws : list (list R)) : option (list mesh_entry) :=
  match qs with
  | [] => Some []
  | q :: qs => match nth_error fs i, nth_error ws i, nth_error mult i, mesh_entries (S i) qs mult fs ws with
               | Some f, Some w, Some m, Some l => Some (MkE q f w m :: l)
               | _, _, _, _ => None
               end
  end.
Definition write_mesh_data (unit_conversion : R) (points : list point) : option (list mesh_entry) :=
  let '(qs, mult, fs, ws) := get_mesh unit_conversion points in mesh_entries 0 qs mult fs ws.
